(** The outcomes of loading a dictionary, one by one. *)
From Coq Require Import String.
From Coq Require Import List NArith ZArith Bool Lia.
From Verif Require Import MBase MUtf8 MText MBincode MCodec MDict MCharDef MUnk MDetails MBuild MTokenFilter MConfig SLoad LBase LEmbedded LLoad.
Import ListNotations.
Local Open Scope list_scope.

Lemma cm_load_long b : 4 <= List.length b -> exists m, cm_load b = Ok m.
Proof. intros H. destruct b as [|x [|y [|z [|w b]]]]; cbn [List.length] in H; try lia. eexists. reflexivity. Qed.

Lemma load_errors e out k : load_dictionary e out = Err k ->
  (k = EIo /\ exists name, In name (map lit ["dict.da"; "dict.vals"; "matrix.mtx"; "char_def.bin"; "unk.bin"; "dict.wordsidx"; "dict.words"]%string) /\ e_read e (join_path out name) = None) \/
  (k = EDeserialize /\ ((exists b, e_read e (join_path out (lit "char_def.bin")) = Some b /\ ~ exists d, starts chardef_format b d) \/
                        (exists b, e_read e (join_path out (lit "unk.bin")) = Some b /\ ~ exists d, starts unknown_format b d))).
Proof.
  intros P. unfold load_dictionary, read_file in P.
  Local Ltac gone P n := left; cbn [ok_or bind] in P; split; [congruence|]; exists (lit n); split; [cbn [map In]; auto 10|assumption].
  destruct (e_read e (join_path out (lit "dict.da"))) as [da|] eqn:E1; [|gone P "dict.da"%string]. cbn [ok_or bind] in P.
  destruct (e_read e (join_path out (lit "dict.vals"))) as [vals|] eqn:E2; [|gone P "dict.vals"%string]. cbn [ok_or bind] in P.
  destruct (e_read e (join_path out (lit "matrix.mtx"))) as [b|] eqn:E3; [|gone P "matrix.mtx"%string]. cbn [ok_or bind] in P.
  destruct (Nat.lt_ge_cases (List.length b) 4) as [L|L]; [rewrite (cm_load_short _ L) in P; discriminate|].
  destruct (cm_load_long b L) as (m & M). rewrite M in P. cbn [bind] in P.
  destruct (e_read e (join_path out (lit "char_def.bin"))) as [cb|] eqn:E4; [|gone P "char_def.bin"%string]. cbn [ok_or bind] in P.
  unfold load_chardef in P. destruct (dec_chardef cb) as [[cd ?]|] eqn:D1; cbn [bind] in P.
  2: { right. split; [congruence|]. left. exists cb. split; [first [assumption|reflexivity]|]. intros (d & S). apply (proj1 chardef_loads) in S. unfold load_chardef in S. rewrite D1 in S. discriminate. }
  destruct (e_read e (join_path out (lit "unk.bin"))) as [ub|] eqn:E5; [|gone P "unk.bin"%string]. cbn [ok_or bind] in P.
  unfold load_unknown in P. destruct (dec_unknown ub) as [[u ?]|] eqn:D2; cbn [bind] in P.
  2: { right. split; [congruence|]. right. exists ub. split; [first [assumption|reflexivity]|]. intros (d & S). apply (proj1 unknown_loads) in S. unfold load_unknown in S. rewrite D2 in S. discriminate. }
  destruct (e_read e (join_path out (lit "dict.wordsidx"))) eqn:E6; [|gone P "dict.wordsidx"%string]. cbn [ok_or bind] in P.
  destruct (e_read e (join_path out (lit "dict.words"))) eqn:E7; [discriminate|gone P "dict.words"%string].
Qed.
