(** C61 and C41: the errors of loading a dictionary, and the words of a user dictionary that is not there. *)
From Coq Require Import String.
From Coq Require Import List NArith ZArith Bool Lia.
From Verif Require Import MBase MUtf8 MText MBincode MCodec MDict MCharDef MUnk MTokenizer MDetails MBuild MTokenFilter MConfig MBuilders SData SLoad LOutcomes XData XConfig XBuilders.
Import ListNotations.
Local Open Scope list_scope.

(** C61: there are two errors: a file cannot be read, or the categories or unknown words do not start with their format. *)
Theorem C61_errors : forall e out k, load_dictionary e out = Err k ->
  (k = EIo /\ exists name, In name (map lit ["dict.da"; "dict.vals"; "matrix.mtx"; "char_def.bin"; "unk.bin"; "dict.wordsidx"; "dict.words"]%string) /\ e_read e (join_path out name) = None) \/
  (k = EDeserialize /\ ((exists b, e_read e (join_path out (lit "char_def.bin")) = Some b /\ ~ exists d, starts chardef_format b d) \/
                        (exists b, e_read e (join_path out (lit "unk.bin")) = Some b /\ ~ exists d, starts unknown_format b d))).
Proof. exact load_errors. Qed.
Print Assumptions C61_errors.

(* both errors happen *)
Example C61_errors_ex : load_dictionary (file_env []) (lit "out") = Err EIo /\
  load_dictionary (file_env [(lit "out/dict.da", []); (lit "out/dict.vals", []); (lit "out/matrix.mtx", [0; 0; 0; 0]%N); (lit "out/char_def.bin", [])]) (lit "out") = Err EDeserialize.
Proof. split; vm_compute; reflexivity. Qed.

(** C41: a word of the user dictionary has no details when there is no user dictionary, and none are remembered. *)
Theorem C41_no_user : forall d w, is_unknown w = false -> is_system w = false -> get_details d None w None = Ok (None, None).
Proof. intros d w U S. unfold get_details. rewrite U, S. reflexivity. Qed.
Print Assumptions C41_no_user.

Example C41_no_user_ex : is_unknown (WordId 1 false) = false /\ is_system (WordId 1 false) = false.
Proof. split; reflexivity. Qed.
