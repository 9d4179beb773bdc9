(** Example source files and an example environment for the theorems in PBuilders.v. *)
From Coq Require Import String.
From Coq Require Import List NArith ZArith Bool Lia ZifyBool ZifyNat ZifyN.
From Verif Require Import MBase MUtf8 MText MCodec MDict MCharDef MUnk MBincode MLattice MTokenizer MDetails MBuild MCharFilter MConfig MBuilders
  STok SBuild SMatrix SCharDef SUnk SData SConfig SBuilders LUtf8 LCodec LCharDef LBuild XBuild XData XConfig.
Import ListNotations.
Local Open Scope string_scope.
Local Open Scope list_scope.

(* a trie written as its keys, a zero byte after each, and values of four bytes; short ones only *)
Definition write_keys (ks : list (list N * N)) : list N := flat_map (fun kv => fst kv ++ 0%N :: le_bytes 4 (snd kv)) ks.
Fixpoint read_keys (acc : list N) (bs : list N) : list (list N * N) :=
  match bs with
  | 0%N :: a :: b :: c :: d :: r => (rev acc, le_value [a; b; c; d]) :: read_keys [] r
  | b :: r => read_keys (b :: acc) r
  | [] => []
  end.
Definition sample_yada (ks : list (list N * N)) : option (list N) :=
  if (N.of_nat (List.length (write_keys ks)) <? 10000)%N && forallb (fun b => b <? 256)%N (write_keys ks) then Some (write_keys ks) else None.

Lemma read_write_keys ks : trie_input ks -> read_keys [] (write_keys ks) = ks.
Proof.
  assert (H : forall key acc v r, ~ In 0%N key -> (v < 2147483648)%N ->
     read_keys acc (key ++ 0%N :: le_bytes 4 v ++ r) = (rev acc ++ key, v) :: read_keys [] r).
  { induction key as [|b key IH]; intros acc v r N0 V.
    - rewrite app_nil_r. pose proof (le_value_small 4 v) as LV. pose proof (le_bytes_length 4 v) as LL. cbn [app].
      destruct (le_bytes 4 v) as [|b1 [|b2 [|b3 [|b4 [|? ?]]]]]; try discriminate LL. cbn [app read_keys]. rewrite LV; [reflexivity|].
      change (256 ^ N.of_nat 4)%N with 4294967296%N. lia.
    - cbn [app]. assert (E : exists p, b = N.pos p) by (destruct b; [contradiction N0; left; reflexivity|eauto]). destruct E as (p & ->).
      cbn [read_keys]. rewrite IH; [cbn [rev]; rewrite <- app_assoc; reflexivity| |exact V]. intros I1. apply N0. right. exact I1. }
  intros [_ [F _]]. induction F as [|[key v] ks (_ & N0 & V) F IH]; [reflexivity|]. unfold write_keys. cbn [flat_map fst snd].
  rewrite <- app_assoc. cbn [app]. rewrite H by assumption. cbn [rev app]. f_equal. exact IH.
Qed.

Lemma increasing_nodup l : increasing l -> NoDup l.
Proof.
  induction l as [|x l IH]; intros H; constructor; destruct H as [F H]; [|apply IH; exact H].
  intros I1. rewrite Forall_forall in F. specialize (F x I1). apply bytes_lt_leb in F. tauto.
Qed.

(* it works for a few short words *)
Lemma sample_works words ks : Forall valid_str words -> (N.of_nat (List.length words) < 90)%N -> Forall (fun w => (N.of_nat (List.length (utf8 w)) < 100)%N) words ->
  trie_input ks -> Forall (fun kv => exists w, In w words /\ fst kv = utf8 w) ks ->
  exists b, sample_yada ks = Some b /\ read_keys [] b = ks.
Proof.
  intros V C SH T K. unfold sample_yada.
  assert (L1 : (List.length ks <= List.length words)%nat).
  { rewrite <- (map_length fst ks), <- (map_length utf8 words). apply NoDup_incl_length; [apply increasing_nodup, T|].
    intros key I1. apply in_map_iff in I1. destruct I1 as (kv & <- & I1). rewrite Forall_forall in K. destruct (K kv I1) as (w & I2 & ->). apply in_map. exact I2. }
  assert (L2 : (N.of_nat (List.length (write_keys ks)) <= 105 * N.of_nat (List.length ks))%N).
  { clear L1 T. induction K as [|kv ks (w & I1 & E) K IH]; [cbn; lia|]. unfold write_keys in *. cbn [flat_map List.length]. rewrite !app_length. cbn [List.length].
    rewrite le_bytes_length, E. rewrite Forall_forall in SH. specialize (SH w I1). cbn beta in SH. lia. }
  assert (B : forallb (fun b => b <? 256)%N (write_keys ks) = true).
  { apply forallb_forall. intros b I1. unfold write_keys in I1. apply in_flat_map in I1. destruct I1 as (kv & I2 & I1).
    rewrite Forall_forall in K. destruct (K kv I2) as (w & I3 & E). apply in_app_or in I1. destruct I1 as [I1|[<-|I1]]; [|reflexivity|].
    - rewrite E in I1. rewrite Forall_forall in V. pose proof (utf8_bytes w (V w I3)) as U. rewrite Forall_forall in U. specialize (U b I1). unfold is_byte in U. lia.
    - pose proof (le_bytes_byte 4 (snd kv)) as U. rewrite Forall_forall in U. specialize (U b I1). unfold is_byte in U. lia. }
  assert (E : (N.of_nat (List.length (write_keys ks)) <? 10000)%N = true) by lia.
  rewrite E, B. cbn [andb]. exists (write_keys ks). split; [reflexivity|]. apply read_write_keys. exact T.
Qed.

Definition src_char : str := text ["DEFAULT 0 1 0"; "ALPHA 1 1 0"; "0x61..0x63 ALPHA"].
Definition src_unk : str := text ["DEFAULT,0,0,100,*,*,*,*,*,*,*"; "ALPHA,0,1,90,x,*,*,*,*,*,*"].
Definition src_matrix : str := text ["2 2"; "0 0 5"; "1 0 7"; "0 1 1"; "1 1 -2"].
Definition src_rows : list row :=
  [ [lit "ab"; lit "0"; lit "1"; lit "10"; lit "noun"]; [lit "b"; lit " 1"; lit "0"; lit "-4"; lit "verb"] ].
Definition src : sources := Sources src_char src_unk src_matrix src_rows.
Definition src_content : content :=
  Content [DCategory (lit "DEFAULT") (CategoryData false true 0); DCategory (lit "ALPHA") (CategoryData true true 0); DRange 0x61 0x63 [lit "ALPHA"]]
    [UnkLine (lit "DEFAULT") 0 0 100; UnkLine (lit "ALPHA") 0 1 90] 2 2 [(0, 0, 5%Z); (1, 0, 7%Z); (0, 1, 1%Z); (1, 1, (-2)%Z)]%N.

(* a user dictionary with context ids inside the small matrix *)
Definition small_user : list row :=
  [ [lit "sky"; lit "1"; lit "0"; lit "-77"; lit "1"; lit "2"; lit "3"; lit "4"; lit "5"; lit "6"; lit "7"; lit "8"; lit "9"] ].
(* files by path, and the rows of the three CSV files by content *)
Definition file_env (files : list (str * list N)) : env :=
  let e := sample_env in
  Env (e_parse e) (e_pretty e) (e_regex e) (e_graphemes e) (e_form e) (e_lower e) (e_upper e) (e_kana e) (e_block e) (e_embedded e)
    (fun p => match find (fun f => str_eqb (fst f) p) files with Some f => Some (snd f) | None => None end) (read_keys [])
    (fun bytes => if str_eqb bytes [1%N] then Ok src_rows else if str_eqb bytes [2%N] then Ok user_sample else if str_eqb bytes [3%N] then Ok small_user else Err EParse).
Definition src_files : list (str * list N) :=
  [(lit "in/char.def", src_char); (lit "in/unk.def", src_unk); (lit "in/matrix.def", src_matrix); (lit "in/words.csv", [1%N]); (lit "my/user.csv", [2%N]); (lit "my/small.csv", [3%N])].
Definition src_env (compress : bool) (files : list (str * list N)) : build_env :=
  BuildEnv (file_env files) (fun _ b => b) (fun b => b) (fun _ => Ok [lit "words.csv"]) sample_yada codecs_sample compress.

Lemma src_sources c : has_sources (src_env c src_files) IPADIC (lit "in") src.
Proof.
  split; try (eexists; split; vm_compute; reflexivity).
  exists [lit "words.csv"], [src_rows]. split; [reflexivity|]. split; [|reflexivity]. constructor; [|constructor].
  exists [1%N]. split; [vm_compute; reflexivity|]. split; [reflexivity|]. right. exists 5. repeat constructor.
Qed.

Lemma src_defined_first : defined_first (c_char src_content).
Proof.
  split.
  - apply (NoDup_count_occ' (list_eq_dec N.eq_dec)). intros x H. cbn [src_content c_char flat_map defines app map fst In] in H.
    destruct H as [<-|[<-|[]]]; vm_compute; reflexivity.
  - intros pre lo hi names post E name I1. unfold src_content in E. cbn [c_char] in E.
    do 2 (destruct pre as [|? pre]; [discriminate|injection E as <- E]).
    do 1 (destruct pre as [|? pre]; [injection E as <- <- <- E; cbn [In] in I1; cbn [flat_map defines app map fst In]; intuition|injection E as <- E]).
    destruct pre; discriminate.
Qed.

Lemma src_limits : sys_limits (source_options IPADIC) src_rows.
Proof.
  split; [left; vm_compute; discriminate|..].
  - apply rows_valid. vm_compute. reflexivity.
  - repeat constructor; cbn; lia.
  - repeat constructor; cbn; try discriminate; intros H; repeat (destruct H as [H|H]; [discriminate|]); exact H.
  - repeat constructor; intros H; repeat (destruct H as [H|H]; [discriminate|]); exact H.
  - vm_compute. reflexivity.
  - vm_compute. reflexivity.
  - intros s. eapply Nat.le_trans; [apply filter_le|]. cbn. lia.
Qed.

Lemma src_matrix_def : matrix_def src_matrix 2 2 [(0, 0, 5%Z); (1, 0, 7%Z); (0, 1, 1%Z); (1, 1, (-2)%Z)]%N.
Proof.
  exists (lit "2 2"), [lit "0 0 5"; lit "1 0 7"; lit "0 1 1"; lit "1 1 -2"]. split; [vm_compute; reflexivity|]. split.
  - exists []. apply line_numbers_of. vm_compute. reflexivity.
  - repeat constructor; exists []; apply line_numbers_of; vm_compute; reflexivity.
Qed.

Lemma src_unk_lines : Forall2 (reads_as 11) (lines src_unk) (c_unk src_content).
Proof.
  replace (lines src_unk) with [lit "DEFAULT,0,0,100,*,*,*,*,*,*,*"; lit "ALPHA,0,1,90,x,*,*,*,*,*,*"] by (vm_compute; reflexivity).
  repeat constructor; eexists _, _, _, _; (split; [vm_compute; reflexivity|]); repeat split; vm_compute; reflexivity.
Qed.

Lemma src_readable : readable IPADIC src src_content.
Proof.
  split.
  - vm_compute. reflexivity.
  - exact src_defined_first.
  - cbn [src_content c_char flat_map mentions app].
    repeat (constructor; [apply Forall_forall; intros c I1; apply valid_charb_iff; revert c I1; apply forallb_forall; vm_compute; reflexivity|]). constructor.
  - vm_compute. reflexivity.
  - exact src_unk_lines.
  - repeat constructor; unfold fits, is_u16, is_i16; cbn [ul_left ul_right ul_cost]; lia.
  - repeat constructor.
  - vm_compute. reflexivity.
  - exact src_matrix_def.
  - repeat constructor; unfold is_i16; lia.
  - cbn. lia.
  - exact (limits_room _ _ src_limits).
  - right. repeat constructor; vm_compute; discriminate.
  - constructor; [|constructor; [|constructor]]; intros ? ? ? E; vm_compute in E; injection E as <- <- <-; split; reflexivity.
Qed.

Lemma src_complete : complete src_content.
Proof.
  split; [left; reflexivity|]. cbn [src_content c_char flat_map mentions app In]. intros name [<-|[<-|[<-|[]]]]; cbn [c_unk].
  - apply Exists_cons_hd. reflexivity.
  - apply Exists_cons_tl, Exists_cons_hd. reflexivity.
  - apply Exists_cons_tl, Exists_cons_hd. reflexivity.
Qed.

Definition few_short (words : list str) : bool :=
  forallb (forallb valid_charb) words && (N.of_nat (List.length words) <? 90)%N && forallb (fun w => (N.of_nat (List.length (utf8 w)) <? 100)%N) words.
Lemma sample_yada_works c files files' words : few_short words = true -> yada_works (src_env c files) (file_env files') words.
Proof.
  unfold few_short. intros H. apply andb_true_iff in H. destruct H as [H H3]. apply andb_true_iff in H. destruct H as [H1 H2].
  intros ks T K. apply (sample_works words); [| | |exact T|exact K].
  - rewrite forallb_forall in H1. apply Forall_forall. intros w I1. specialize (H1 w I1). rewrite forallb_forall in H1. apply Forall_forall. intros c0 I2. apply valid_charb_iff. auto.
  - lia.
  - rewrite forallb_forall in H3. apply Forall_forall. intros w I1. specialize (H3 w I1). lia.
Qed.
Lemma sample_yada_bytes c files : yada_bytes (src_env c files).
Proof.
  intros ks b H. cbn [src_env be_yada] in H. unfold sample_yada in H. destruct (_ && _) eqn:E; [|discriminate]. injection H as <-.
  apply andb_true_iff in E. destruct E as [E1 E2]. split; [|unfold short; lia].
  rewrite forallb_forall in E2. apply Forall_forall. intros b I1. specialize (E2 b I1). unfold is_byte. lia.
Qed.

(* where the files of a build are put *)
Definition put (out : str) (files : list (str * list N)) : list (str * list N) := map (fun f => (join_path out (fst f), snd f)) files.
Lemma join_path_inj out a b : join_path out a = join_path out b -> a = b.
Proof.
  unfold join_path. destruct (is_nil out || ends_with_char out 47%N); intros H; [apply app_inv_head in H; exact H|]. apply app_inv_head in H. injection H as H. exact H.
Qed.
Lemma put_files_and files out more : NoDup (map fst files) -> files_at (file_env (put out files ++ more)) out files.
Proof.
  intros ND name bytes I1. cbn [file_env e_read]. induction files as [|[n b] files IH]; [destruct I1|]. cbn [map fst] in ND. inversion ND as [|? ? NI ND']; subst.
  cbn [put map app fst snd find]. destruct (str_eqb (join_path out n) (join_path out name)) eqn:E.
  - apply str_eqb_spec, join_path_inj in E. subst. destruct I1 as [I1|I1]; [injection I1 as <-; reflexivity|].
    exfalso. apply NI. apply in_map_iff. exists (name, bytes). auto.
  - destruct I1 as [I1|I1]; [injection I1 as <- <-|apply IH; assumption].
    exfalso. assert (X : str_eqb (join_path out n) (join_path out n) = true) by (apply str_eqb_spec; reflexivity). congruence.
Qed.
Lemma put_files_at files out : NoDup (map fst files) -> files_at (file_env (put out files)) out files.
Proof. intros ND. rewrite <- (app_nil_r (put out files)). apply put_files_and, ND. Qed.

Definition src_built (c : bool) : list (str * list N) :=
  match build_dictionary (src_env c src_files) IPADIC (lit "in") with Ok f => f | _ => [] end.
Lemma src_built_names c : NoDup (map fst (src_built c)).
Proof.
  apply (NoDup_count_occ' (list_eq_dec N.eq_dec)). destruct c;
  (replace (map fst (src_built _)) with (map lit ["char_def.bin"; "unk.bin"; "dict.words"; "dict.wordsidx"; "dict.da"; "dict.vals"; "matrix.mtx"]) by (vm_compute; reflexivity));
  intros x H; cbn [map In] in H; repeat (destruct H as [<-|H]; [vm_compute; reflexivity|]); destruct H.
Qed.

(* a user dictionary *)
Lemma user_sample_readable k : k = IPADIC -> user_readable (be_env (src_env false src_files)) k (lit "my/user.csv") user_sample.
Proof.
  intros ->. split.
  - exists [2%N]. split; [vm_compute; reflexivity|]. split; [reflexivity|]. left. reflexivity.
  - exact (user_limits_room _ _ user_sample_limits).
  - repeat constructor; cbn; lia.
  - repeat constructor; vm_compute; discriminate.
Qed.

Lemma small_user_room : user_room (kind_user_options IPADIC) small_user.
Proof.
  split; [discriminate|..].
  - constructor; [|constructor]. split; [|split; [discriminate|apply no_nulb_spec; vm_compute; reflexivity]].
    assert (G : Forall (Forall valid_str) small_user) by (apply rows_valid; vm_compute; reflexivity).
    inversion G as [|? ? G1 _]; subst. inversion G1; assumption.
  - constructor; [|constructor]. intros ds E. vm_compute in E. injection E as <-.
    match goal with |- Forall valid_str ?l => assert (G : Forall (Forall valid_str) [l]) by (apply rows_valid; vm_compute; reflexivity); inversion G; assumption end.
  - unfold is_i16, is_u16. cbn. lia.
  - vm_compute. reflexivity.
  - vm_compute. reflexivity.
Qed.
Lemma small_user_fits : user_ids_fit IPADIC small_user src_content.
Proof. constructor; [|constructor]. intros c l r E. vm_compute in E. injection E as <- <- <-. split; reflexivity. Qed.
