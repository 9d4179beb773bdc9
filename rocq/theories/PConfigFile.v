(** C81, for a configuration in a file. *)
From Coq Require Import String.
From Coq Require Import List NArith ZArith Bool.
From Verif Require Import MBase MUtf8 MText MCodec MBincode MTokenizer MConfig MConfigFile LUtf8 XConfig XBuilders.
Import ListNotations.
Local Open Scope string_scope.
Local Open Scope list_scope.

(* no file, no JSON text, or what the value of the text gives *)
Theorem C81_file : forall e path,
  (e_read e path = None -> analyzer_from_file e path = Err EIo) /\
  (forall data, e_read e path = Some data -> (forall json v, valid_str json -> data = utf8 json -> e_parse e json <> Some v) ->
     analyzer_from_file e path = Err EDeserialize) /\
  (forall json v, valid_str json -> e_read e path = Some (utf8 json) -> e_parse e json = Some v ->
     analyzer_from_file e path = analyzer_from_config e v).
Proof.
  intros e path. unfold analyzer_from_file, config_from_file, config_from_slice. split; [intros ->; reflexivity|]. split.
  - intros data -> H. cbn [ok_or bind]. destruct (utf8_decode data) as [json|] eqn:D; [|reflexivity]. cbn [ok_or bind].
    apply decode_iff in D. destruct D as [V ->]. destruct (e_parse e json) as [v|] eqn:P; [|reflexivity]. contradiction (H json v V eq_refl P).
  - intros json v V -> P. cbn [ok_or bind]. rewrite (proj2 (decode_iff _ json) (conj V eq_refl)). cbn [ok_or bind]. rewrite P. reflexivity.
Qed.
Print Assumptions C81_file.

Definition ex_conf : value := VObj [(lit "tokenizer", VObj [(lit "dictionary", VObj [(lit "kind", VStr (lit "ipadic"))]); (lit "mode", VStr (lit "normal"))])].
Definition ex_conf_env : env :=
  let e := file_env [(lit "good.json", lit "[1]"); (lit "array.json", lit "[2]"); (lit "bad.json", lit "["); (lit "latin1.json", [233%N])] in
  Env (fun s => if str_eqb s (lit "[1]") then Some ex_conf else if str_eqb s (lit "[2]") then Some (VArr []) else None)
    (e_pretty e) (e_regex e) (e_graphemes e) (e_form e) (e_lower e) (e_upper e) (e_kana e) (e_block e) (e_embedded e) (e_read e) (e_da e) (e_csv e).
Definition ex_load (path : string) : res unit := do _ <- analyzer_from_file ex_conf_env (lit path); Ok tt.
Example C81_file_ex : ex_load "good.json" = Ok tt /\ ex_load "array.json" = Err EDeserialize /\ ex_load "bad.json" = Err EDeserialize /\
  ex_load "latin1.json" = Err EDeserialize /\ ex_load "none.json" = Err EIo.
Proof. repeat split; vm_compute; reflexivity. Qed.
