(** Sources, a user dictionary and an environment for the shipped configuration. *)
From Coq Require Import String.
From Coq Require Import List NArith ZArith Bool Lia.
From Verif Require Import MBase MUtf8 MText MCodec MDict MLattice MTokenizer MBuild MCharFilter MAnalyzer MTokenFilter MConfig MBuilders MShipped
  SBuild SMatrix SBuilders STokenFilter LBase LDict LText LCharDef XSample XBuild XData XConfig XUnit XBuilders PBuilders.
Import ListNotations.
Local Open Scope string_scope.
Local Open Scope list_scope.

Definition number_user : list row :=
  [ fields "十|1|0|-77|名詞|数|*|*|*|*|十|ジュウ|ジュー"; fields "百|1|0|-77|名詞|数|*|*|*|*|百|ヒャク|ヒャク"; fields "三|1|0|-77|名詞|数|*|*|*|*|三|サン|サン";
    fields "の|1|0|-77|助詞|連体化|*|*|*|*|の|ノ|ノ"; fields "メーター|1|0|-77|名詞|一般|*|*|*|*|メーター|メーター|メーター" ].
(* Basic Latin, CJK Unified Ideographs, the two kana and the gap before U+2FF0, which is in no block; any other character is a block of its own here *)
Definition ship_block (c : char) : option block :=
  if (c <=? 0x7F)%N then Some (0, 0x7F)%N
  else if ((0x3040 <=? c) && (c <=? 0x309F))%N then Some (0x3040, 0x309F)%N
  else if ((0x30A0 <=? c) && (c <=? 0x30FF))%N then Some KATAKANA
  else if ((0x4E00 <=? c) && (c <=? 0x9FFF))%N then Some (0x4E00, 0x9FFF)%N
  else if ((0x2FE0 <=? c) && (c <=? 0x2FEF))%N then None
  else Some (c, c).
Definition ship_files (files : list (str * list N)) : env :=
  let e := file_env files in
  Env (e_parse e) (e_pretty e) (e_regex e) (e_graphemes e) (e_form e) (e_lower e) (e_upper e) (e_kana e) ship_block (e_embedded e) (e_read e) (e_da e)
    (fun bytes => if str_eqb bytes [4%N] then Ok number_user else e_csv e bytes).
Definition ship_build (c : bool) : build_env :=
  let b := src_env c src_files in
  BuildEnv (ship_files (src_files ++ [(lit "my/number.csv", [4%N])])) (be_text b) (be_transcode b) (be_glob b) (be_yada b) (be_codecs b) c.
Definition ship_bin : list N := match build_user_file (ship_build true) IPADIC (lit "my/number.csv") with Ok f => f | _ => [] end.
Definition ship_env : env :=
  let e := ship_files [(lit "./resources/ipadic_simple_userdic.bin", ship_bin)] in
  Env (e_parse e) (e_pretty e) (e_regex e) (e_graphemes e) (e_form e) (e_lower e) (e_upper e) (e_kana e) (e_block e)
    (fun k => match k with IPADIC => Some (embedded_dictionary e codecs_sample true (get_file (src_built true))) | _ => None end) (e_read e) (e_da e) (e_csv e).

Definition shown (o : option (res (list ftoken))) : option (res (list (str * nat * nat * nat * nat))) :=
  match o with
  | Some (Ok ts) => Some (Ok (map (fun tk => (ft_text tk, N.to_nat (ft_start tk), N.to_nat (ft_end tk), ft_position tk, ft_position_length tk)) ts))
  | Some (Err k) => Some (Err k)
  | Some Panic => Some Panic
  | None => None
  end.
Definition ship_shown (text : string) : option (res (list (str * nat * nat * nat * nat))) :=
  match analyzer_from_config ship_env shipped_value with Ok d => shown (analyze (analyzer_of ship_env d) (tx text)) | Err k => Some (Err k) | Panic => Some Panic end.

Lemma ship_blocks_ok : blocks_ok ship_block.
Proof.
  split; intros c; unfold ship_block, KATAKANA; repeat match goal with |- context [if ?b then _ else _] => destruct b eqn:? end;
  repeat match goal with H : _ = true |- _ => (apply andb_true_iff in H; destruct H) || apply N.leb_le in H | H : _ = false |- _ => (apply andb_false_iff in H) || apply N.leb_gt in H end;
  intros b; try (intros X; injection X as <-; cbn [fst snd]; lia); try discriminate; try reflexivity;
  try (exfalso; repeat match goal with H : _ \/ _ |- _ => destruct H | H : _ = true |- _ => apply N.leb_le in H | H : _ = false |- _ => apply N.leb_gt in H end; lia).
Qed.
Lemma number_user_room : user_room (kind_user_options IPADIC) number_user.
Proof.
  assert (G : Forall (Forall valid_str) number_user) by (apply rows_valid; vm_compute; reflexivity).
  split; [discriminate|..].
  - apply Forall_forall. intros r I. split; [|split].
    + rewrite Forall_forall in G. specialize (G r I). destruct G as [|x l V _]; [constructor|exact V].
    + assert (H : forallb (fun r : row => match hd [] r with [] => false | _ => true end) number_user = true) by (vm_compute; reflexivity).
      rewrite forallb_forall in H. specialize (H r I). destruct (hd [] r); congruence.
    + apply no_nulb_spec. assert (H : forallb (fun r : row => no_nulb (hd [] r)) number_user = true) by (vm_compute; reflexivity).
      rewrite forallb_forall in H. exact (H r I).
  - repeat (constructor; [intros ds E; vm_compute in E; injection E as <-;
      match goal with |- Forall valid_str ?l => assert (G' : Forall (Forall valid_str) [l]) by (apply rows_valid; vm_compute; reflexivity); inversion G'; assumption end|]); constructor.
  - unfold is_i16, is_u16. cbn. lia.
  - vm_compute. reflexivity.
  - vm_compute. reflexivity.
Qed.
Lemma number_user_fits : user_ids_fit IPADIC number_user src_content.
Proof. repeat (constructor; [intros c l r E; vm_compute in E; injection E as <- <- <-; split; reflexivity|]); constructor. Qed.
Lemma number_user_readable c : user_readable (be_env (ship_build c)) IPADIC (lit "my/number.csv") number_user.
Proof.
  constructor.
  - exists [4%N]. split; [vm_compute; reflexivity|]. split; [reflexivity|]. left. reflexivity.
  - exact number_user_room.
  - repeat (constructor; [right; apply Nat.leb_le; vm_compute; reflexivity|]). constructor.
  - repeat constructor; vm_compute; discriminate.
Qed.
