(** Property C87: filters applied a second time. *)
From Coq Require Import String.
From Coq Require Import List NArith ZArith Bool Lia.
From Verif Require Import MBase MUtf8 MText MCodec MDict MBuild MCharFilter MAnalyzer MTokenFilter MConfig
  SCharFilter STokenFilter SAgain LKana LFilterProps LAgain XConfig.
Import ListNotations.
Local Open Scope string_scope.
Local Open Scope list_scope.

Theorem C87_tokens_again : forall e d ts out, once_enough e d -> run_token_filter e d ts = Ok out -> run_token_filter e d out = Ok out.
Proof. exact tokens_again. Qed.
Print Assumptions C87_tokens_again.
Theorem C87_numbers_again : forall s r, to_arabic_numerals s = Ok r -> to_arabic_numerals r = Ok r.
Proof. exact number_again. Qed.
Print Assumptions C87_numbers_again.

(* stemming goes on exactly with texts that end in two marks *)
Theorem C87_stem_again : forall fb min text t, blocks_ok fb -> stem fb min text = Ok t -> (stem fb min t = Ok t <-> ~ two_marks min text).
Proof. exact stem_again. Qed.
Print Assumptions C87_stem_again.

(* iteration marks that do not repeat iteration marks *)
Theorem C87_marks_again : forall cfg text out, repeats_no_mark (ic_kanji cfg) (ic_kana cfg) text ->
  iteration_apply cfg text = Ok (out, [], []) -> iteration_apply cfg out = Ok (out, [], []).
Proof. exact marks_again. Qed.
Print Assumptions C87_marks_again.

(* a text without keys is left alone; with replacements that are not empty and share no character with a key, one application is enough *)
Theorem C87_mapping_free : forall m f text, mapping_keys_ok m -> mapping_new m = Ok f -> valid_str text -> free_of_keys m text ->
  mapping_apply f text = Some (Ok (text, [], [])).
Proof. exact mapping_free. Qed.
Print Assumptions C87_mapping_free.
Theorem C87_mapping_again : forall m f text out offs diffs, mapping_keys_ok m -> Forall (fun kv => valid_str (snd kv)) m -> keys_apart m ->
  mapping_new m = Ok f -> valid_str text -> mapping_apply f text = Some (Ok (out, offs, diffs)) -> mapping_apply f out = Some (Ok (out, [], [])).
Proof. exact mapping_again. Qed.
Print Assumptions C87_mapping_again.

(* without the conditions a second application may change the text: 時々々 becomes 時時々 and then 時時時; with ab deleted, aabb becomes ab and then nothing *)
Theorem C87_marks_always_refuted : ~ (forall cfg text out, iteration_apply cfg text = Ok (out, [], []) -> iteration_apply cfg out = Ok (out, [], [])).
Proof.
  intros H. specialize (H (IterationConfig true true) [0x6642; 0x3005; 0x3005]%N [0x6642; 0x6642; 0x3005]%N eq_refl). vm_compute in H. discriminate H.
Qed.
Print Assumptions C87_marks_always_refuted.
Theorem C87_mapping_always_refuted : ~ (forall m f text out offs diffs, mapping_keys_ok m -> mapping_new m = Ok f -> valid_str text ->
  mapping_apply f text = Some (Ok (out, offs, diffs)) -> exists o d, mapping_apply f out = Some (Ok (out, o, d))).
Proof.
  intros H. specialize (H [(lit "ab", [])]). destruct (mapping_new [(lit "ab", [])]) as [f| |] eqn:E; try discriminate E.
  destruct (H f (lit "aabb") (lit "ab") [1%N] [2%Z]) as (o & d & X).
  - apply mapping_keys_okb_spec. vm_compute. reflexivity.
  - reflexivity.
  - repeat constructor.
  - injection E as <-. vm_compute. reflexivity.
  - injection E as <-. vm_compute in X. discriminate X.
Qed.
Print Assumptions C87_mapping_always_refuted.

Definition piece (text : str) (tag : string) : ftoken := FToken text 0 3 0 1 (WordId 7 true) [lit tag; lit "a"; lit "b"; lit "c"].
(* compounds of tokens whose new tag is joined again, and 二十 *)
Example C87_ex : exists c, compound_config_new IPADIC [lit "N,a,b,c"] (Some (lit "N,a,b,c")) = Ok c /\
  once_enough sample_env (TFCompound c) /\ once_enough sample_env (TFNumber None) /\
  run_token_filter sample_env (TFCompound c) [piece (lit "x") "N"; piece (lit "y") "N"; piece (lit "z") "P"] =
    Ok [FToken (lit "xy") 0 3 0 2 (WordId 7 true) (map lit ["N"; "a"; "b"; "c"; "*"; "*"; "*"; "*"; "*"]); piece (lit "z") "P"] /\
  run_token_filter sample_env (TFNumber None) [piece [0x4E8C; 0x5341]%N "N"] = Ok [piece (lit "20") "N"] /\
  (* カカーー *)
  two_marks 2 [0x30AB; 0x30AB; 0x30FC; 0x30FC]%N /\ ~ two_marks 3 [0x30AB; 0x30AB; 0x30FC; 0x30FC]%N.
Proof.
  eexists. split; [vm_compute; reflexivity|]. split; [exact I|]. split; [exact I|]. split; [vm_compute; reflexivity|]. split; [vm_compute; reflexivity|]. split.
  - exists [0x30AB; 0x30AB]%N. split; [reflexivity|]. split; [repeat constructor; discriminate|cbn; lia].
  - intros (b & _ & _ & L). cbn in L. lia.
Qed.
(* 時々, and half width katakana *)
Lemma ex_marks : repeats_no_mark true true [0x6642; 0x3005; 97]%N.
Proof.
  intros s n p (A & B & C) I M. assert (X : p = 1).
  { destruct (A p I) as (c & f & E & F). destruct p as [|[|[|p]]]; cbn in E; try (injection E as <-); [discriminate F|reflexivity|discriminate F|destruct p; discriminate E]. }
  subst p. assert (s = 1 /\ n = 1).
  { assert (S1 : s = 1). { destruct (Nat.eq_dec s 0) as [->|]; [|lia]. destruct (A 0 ltac:(lia)) as (c & f & E & F). cbn in E. injection E as <-. discriminate F. }
    subst s. split; [reflexivity|]. destruct (Nat.eq_dec n 1) as [|]; [assumption|]. destruct (A 2 ltac:(lia)) as (c & f & E & F). cbn in E. injection E as <-. discriminate F. }
  destruct H as [-> ->]. destruct M as (c & f & E & F). cbn in E. injection E as <-. discriminate F.
Qed.
Example C87_ex_char : repeats_no_mark true true [0x6642; 0x3005; 97]%N /\
  iteration_apply (IterationConfig true true) [0x6642; 0x3005; 97]%N = Ok ([0x6642; 0x6642; 97]%N, [], []) /\
  let m := [([0xFF76], [0x30AB]); ([0xFF76; 0xFF9E], [0x30AC])]%N in
  mapping_keys_ok m /\ Forall (fun kv => valid_str (snd kv)) m /\ keys_apart m /\ free_of_keys m [97; 0x30AC]%N /\
  exists f, mapping_new m = Ok f /\ mapping_apply f [97; 0xFF76; 0xFF9E]%N = Some (Ok ([97; 0x30AC]%N, [4%N], [3%Z])).
Proof.
  split; [exact ex_marks|]. split; [vm_compute; reflexivity|]. cbv zeta. split; [apply mapping_keys_okb_spec; vm_compute; reflexivity|].
  split; [repeat constructor|]. split; [split|].
  - intros k v [E|[E|[]]]; injection E as <- <-; discriminate.
  - intros k v k' v' c [E|[E|[]]] [E'|[E'|[]]]; injection E as <- <-; injection E' as <- <-; cbn; intros I J; repeat (destruct I as [<-|I]; [destruct J as [J|[]]; discriminate J|]); contradiction.
  - split; [|eexists; split; [reflexivity|vm_compute; reflexivity]].
    intros k v a b [E|[E|[]]] F; injection E as <- <-;
      (assert (X : In 0xFF76%N [97; 0x30AC]%N) by (rewrite F; apply in_or_app; right; left; reflexivity); destruct X as [X|[X|[]]]; discriminate X).
Qed.
