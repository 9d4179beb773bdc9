(** Properties C70 and C71: which sources are accepted. *)
From Coq Require Import String.
From Coq Require Import List NArith ZArith Bool Lia ZifyBool ZifyNat ZifyN.
From Verif Require Import MBase MUtf8 MText MCodec MDict MCharDef MUnk MBincode MLattice MTokenizer MDetails MBuild MConfig MBuilders
  STok SText SBuild SMatrix SCharDef SUnk SData SConfig SSource SBuilders SAccept LText LMatrix LSource LBuilders LAccept XSample XBuild XData XConfig XBuilders.
Import ListNotations.
Local Open Scope string_scope.
Local Open Scope list_scope.

(** * C70: which sources build *)

Theorem C70_only : forall be k dir files, build_dictionary be k dir = Ok files -> exists S, has_sources be k dir S /\ accepted k S.
Proof. exact build_only. Qed.
Print Assumptions C70_only.
Theorem C70_builds : forall be k dir S, always_writes be -> has_sources be k dir S -> accepted k S ->
  Exists (fun r => exists c l rr, word_row r c l rr) (s_rows S) ->
  trie_words (map (hd []) (s_rows S)) -> yada_builds be (system_words k (s_rows S)) -> exists files, build_dictionary be k dir = Ok files.
Proof. exact build_accepts. Qed.
Print Assumptions C70_builds.
Theorem C70_user_only : forall be k path file, build_user_file be k path = Ok file ->
  exists rows, user_csv (be_env be) k path rows /\ Forall (accepted_user_row k) rows.
Proof. exact build_user_only. Qed.
Print Assumptions C70_user_only.
Theorem C70_user_builds : forall be k path rows, user_csv (be_env be) k path rows -> Forall (accepted_user_row k) rows ->
  trie_words (user_words rows) -> yada_builds be (user_words rows) -> exists file, build_user_file be k path = Ok file.
Proof. exact build_user_file_accepts. Qed.
Print Assumptions C70_user_builds.
Theorem C70_matrix : forall content, (exists bytes, build_matrix content = Ok bytes) <-> accepted_matrix content.
Proof. exact build_matrix_accepts. Qed.
Print Assumptions C70_matrix.
Theorem C70_numbers : forall r c l rr, (word_row r c l rr <-> sys_numbers r = Some (c, l, rr)) /\
  forall k, user_row r c l rr <-> user_numbers (kind_user_options k) r = Some (c, l, rr).
Proof. exact (fun r c l rr => conj (word_row_spec r c l rr) (fun k => user_row_spec k r c l rr)). Qed.
Print Assumptions C70_numbers.

Lemma src_trie_words rows : forallb (fun r : row => match hd [] r with [] => false | w => forallb (fun c => (0 <? c) && (c <? 128))%N w end) rows = true ->
  (0 <? N.of_nat (List.length rows))%N && (N.of_nat (List.length rows) <? 100)%N = true -> trie_words (map (hd []) rows).
Proof.
  intros H L. apply andb_true_iff in L. destruct L as [L0 L]. split; [destruct rows; [discriminate L0|discriminate]|]. split; [|rewrite map_length; apply N.ltb_lt in L; eapply N.lt_trans; [exact L|reflexivity]]. rewrite Forall_map. apply Forall_forall. intros r I1. rewrite forallb_forall in H. specialize (H r I1).
  destruct (hd [] r) as [|c w]; [discriminate|]. rewrite forallb_forall in H. split; [|split; [discriminate|]].
  - apply Forall_forall. intros x I2. specialize (H x I2). unfold valid_char. lia.
  - intros I2. specialize (H _ I2). discriminate.
Qed.

Definition accept_env : build_env :=
  BuildEnv (file_env src_files) (fun _ b => b) (fun b => b) (fun _ => Ok [lit "words.csv"]) sample_yada (Codecs (fun _ d => Some (7%N :: d)) (fun _ d => Some (tl d))) true.
Example C70_ex : let be := accept_env in
  always_writes be /\ has_sources be IPADIC (lit "in") src /\ accepted IPADIC src /\ Exists (fun r => exists c l rr, word_row r c l rr) (s_rows src) /\ trie_words (map (hd []) (s_rows src)) /\
  yada_builds be (system_words IPADIC (s_rows src)) /\
  user_csv (be_env be) IPADIC (lit "my/user.csv") user_sample /\ Forall (accepted_user_row IPADIC) user_sample /\
  ~ accepted_matrix (text ["2 2"; "2 0 5"]) /\ accepted_matrix (text ["2 2"; "-1 2 5"]) /\
  ~ accepted_row IPADIC [lit "a"; lit "0"; lit "65536"; lit "0"; lit "x"] /\ accepted_row CcCedict [lit "a"; lit "0"; lit "65536"; lit "0"; lit "x"].
Proof.
  cbv zeta. assert (A : accepted IPADIC src).
  { destruct (build_only (src_env true src_files) IPADIC (lit "in") (src_built true)) as (S & H1 & H2); [vm_compute; reflexivity|].
    assert (E : S = src); [|rewrite <- E; exact H2].
    destruct H1 as [(b1 & R1 & D1) (b2 & R2 & D2) (b3 & R3 & D3) (names & files & G & F & E)]. destruct S as [a b c d]. cbn [s_char s_unk s_matrix s_rows] in *.
    vm_compute in R1, R2, R3, D1, D2, D3, G. injection R1 as <-. injection R2 as <-. injection R3 as <-. injection G as <-. subst a b c.
    inversion F as [|? rs ? fs (b & R & C & _) F']; subst. inversion F'; subst. vm_compute in R. injection R as <-. vm_compute in C. injection C as <-. reflexivity. }
  split; [intros _ b; discriminate|]. split; [destruct (src_sources true) as [H1 H2 H3 H4]; split; [exact H1|exact H2|exact H3|exact H4]|]. split; [exact A|].
  split; [left; exists 10%Z, 0%N, 1%N; apply word_row_spec; vm_compute; reflexivity|].
  split; [apply src_trie_words; vm_compute; reflexivity|].
  split.
  { intros ks T K. destruct (sample_yada_works true src_files [] (system_words IPADIC (s_rows src)) ltac:(vm_compute; reflexivity) ks T K) as (b & E & _). change (sample_yada ks = Some b) in E. change (sample_yada ks <> None). rewrite E. discriminate. }
  split; [eexists; split; [vm_compute; reflexivity|]; split; [vm_compute; reflexivity|auto]|].
  split; [apply build_user_accepts; eexists; vm_compute; reflexivity|].
  split; [intros H; apply build_matrix_accepts in H; destruct H as (b & H); vm_compute in H; discriminate|].
  split; [apply build_matrix_accepts; eexists; vm_compute; reflexivity|].
  split.
  - intros H. assert (K : exists f, build_dict (source_options IPADIC) [[lit "a"; lit "0"; lit "65536"; lit "0"; lit "x"]] = Ok f) by (apply build_dict_accepts; constructor; [exact H|constructor]).
    destruct K as (f & K). vm_compute in K. discriminate.
  - assert (K : Forall (accepted_row CcCedict) [[lit "a"; lit "0"; lit "65536"; lit "0"; lit "x"]]) by (apply build_dict_accepts; eexists; vm_compute; reflexivity). inversion K; assumption.
Qed.

(** * C71: numbers that do not fit *)

(** The claim for unk.def fails: numbers of more than 16 bits are accepted and cut off. *)
Theorem C71_unk_refuted : exists content u d e, unk_file 11 content [u] /\ (ul_left u > 65535)%N /\ (ul_cost u > 32767)%Z /\
  parse_unk [ul_name u] content 11 = Ok d /\ ud_word_entry d 0 = Ok e /\ we_left e = 0%N /\ we_cost e = (-25536)%Z.
Proof.
  exists (lit "DEFAULT,65536,0,40000,*,*,*,*,*,*,*"), (UnkLine (lit "DEFAULT") 65536 0 40000). eexists. eexists.
  split; [|split; [reflexivity|split; [reflexivity|split; [vm_compute; reflexivity|split; [vm_compute; reflexivity|split; reflexivity]]]]].
  apply unk_file_spec. change (lines (lit "DEFAULT,65536,0,40000,*,*,*,*,*,*,*")) with [lit "DEFAULT,65536,0,40000,*,*,*,*,*,*,*"].
  constructor; [|constructor]. split; [reflexivity|]. do 4 eexists. split; [vm_compute; reflexivity|]. split; [vm_compute; reflexivity|]. split; vm_compute; reflexivity.
Qed.
Print Assumptions C71_unk_refuted.

Theorem C71_unk_partial : forall cats n content us, 4 <= n -> unk_file n content us -> exists d, parse_unk cats content n = Ok d /\
  forall k u, nth_error us (N.to_nat k) = Some u -> exists e, ud_word_entry d k = Ok e /\
    we_cost e = low16 (ul_cost u) /\ we_left e = (ul_left u mod 65536)%N /\ we_right e = (ul_right u mod 65536)%N.
Proof. exact unk_reduced. Qed.
Print Assumptions C71_unk_partial.

(** The claim for matrix.def fails: an id past the end of its row names a pair of the next row, and costs are cut off. *)
Theorem C71_matrix_refuted : forall fsize bsize, (2 <= fsize <= 32767)%N -> (0 < bsize <= 32767)%N -> exists content bytes m,
  matrix_file content fsize bsize [(0, bsize, 7%Z)]%N /\ build_matrix content = Ok bytes /\ cm_load bytes = Ok m /\ cm_cost m 1 0 = Ok 7%Z.
Proof. exact matrix_stray. Qed.
Print Assumptions C71_matrix_refuted.

Theorem C71_matrix_partial : forall content fsize bsize raws, (0 < fsize <= 32767)%N -> (0 < bsize <= 32767)%N ->
  raw_matrix content (Z.of_N fsize) (Z.of_N bsize) raws ->
  Forall (fun '(f, b, _) => ((b + f * Z.of_N bsize) mod 2 ^ 32 < Z.of_N (fsize * bsize))%Z) raws ->
  exists bytes m, build_matrix content = Ok bytes /\ cm_load bytes = Ok m /\
    forall f b, (f < fsize)%N -> (b < bsize)%N -> cm_cost m f b = Ok (raw_cost (Z.of_N bsize) raws (Z.of_N (b + f * bsize))).
Proof. exact matrix_reduced. Qed.
Print Assumptions C71_matrix_partial.

Theorem C71_rows_partial : forall k r c l rr, (word_row r c l rr \/ user_row r c l rr) -> is_i16 c /\ is_u16 l /\ is_u16 rr /\
  (accepted_row k r -> k <> CcCedict -> exists c l rr, word_row r c l rr).
Proof. exact rows_fit. Qed.
Print Assumptions C71_rows_partial.

Example C71_ex : let raws := [(0, 2, 70000); (-1, 2, 5); (0, 4294967297 - 4294967296, 9)]%Z in
  raw_matrix (text ["2 2"; "0 2 70000"; "-1 2 5"; "0 1 9"]) 2 2 raws /\
  Forall (fun '(f, b, _) => ((b + f * 2) mod 2 ^ 32 < 4)%Z) raws /\
  raw_cost 2 raws 2 = 4464%Z /\ raw_cost 2 raws 0 = 5%Z /\ raw_cost 2 raws 1 = 9%Z /\ raw_cost 2 raws 3 = 32767%Z.
Proof.
  cbv zeta. split; [|split; [repeat constructor; vm_compute; reflexivity|repeat split]].
  exists (lit "2 2"), [lit "0 2 70000"; lit "-1 2 5"; lit "0 1 9"], []. split; [apply lines_spec; vm_compute; reflexivity|].
  split; [apply parse_matrix_line_spec; vm_compute; reflexivity|]. repeat constructor; exists []; apply parse_matrix_line_spec; vm_compute; reflexivity.
Qed.
