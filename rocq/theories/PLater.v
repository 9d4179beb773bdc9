(** Property C103: token filters do not look at offsets, and may as well be applied to a finished analysis. *)
From Coq Require Import String.
From Coq Require Import List NArith ZArith Bool Lia.
From Verif Require Import MBase MUtf8 MText MCodec MDict MLattice MTokenizer MBuild MAnalyzer MTokenFilter MConfig MBuilders SLater LLater XBuild XData XBuilders PFull.
Import ListNotations.
Local Open Scope string_scope.
Local Open Scope list_scope.

Theorem C103_offsets : forall e d g ts, same_up_to (map (moved_by g)) (run_token_filter e d ts) (run_token_filter e d (map (moved_by g) ts)).
Proof. exact filter_moved_by. Qed.
Print Assumptions C103_offsets.

Theorem C103_one_more : forall e cfs t tds d text ts, analyze (analyzer_of e (AnalyzerDef cfs t tds)) text = Some (Ok ts) ->
  analyze (analyzer_of e (AnalyzerDef cfs t (tds ++ [d]))) text = Some (run_token_filter e d ts).
Proof. exact one_later. Qed.
Print Assumptions C103_one_more.

Theorem C103_fails : forall e cfs t tds more text, (forall ts, analyze (analyzer_of e (AnalyzerDef cfs t tds)) text <> Some (Ok ts)) ->
  analyze (analyzer_of e (AnalyzerDef cfs t (tds ++ more))) text = analyze (analyzer_of e (AnalyzerDef cfs t tds)) text.
Proof. exact failed_later. Qed.
Print Assumptions C103_fails.

(** A mapping that shortens, then a compound of three tokens *)

Definition later_compound : token_filter_def := TFCompound (CompoundConfig IPADIC [lit "noun,*,*,*"; lit "UNK,*,*,*"] None).
Definition later_case : option (tokenizer * char_filter_def) :=
  match load_char_filter path_env (lit "mapping") (VObj [(lit "mapping", VObj [(lit "q", VStr (lit "sky"))])]),
        tokenizer_from_config path_env (TokenizerConfig (DictionaryConfig None (Some (lit "out"))) None Normal) with
  | Ok d, Ok t => Some (t, d)
  | _, _ => None
  end.
Definition seen (o : option (res (list ftoken))) : option (list (str * N * N)) :=
  match o with Some (Ok ts) => Some (map (fun tk => (ft_text tk, ft_start tk, ft_end tk)) ts) | _ => None end.
Example C103_ex : exists t d, later_case = Some (t, d) /\
  seen (analyze (analyzer_of path_env (AnalyzerDef [d] t [])) (lit "abqab")) = Some [(lit "ab", 0, 2); (lit "sky", 2, 3); (lit "ab", 3, 5)]%N /\
  seen (analyze (analyzer_of path_env (AnalyzerDef [d] t ([] ++ [later_compound]))) (lit "abqab")) = Some [(lit "abskyab", 0, 5)]%N /\
  same_up_to (map (moved_by (fun o => 10 * o)%N)) (run_token_filter path_env TFUppercase [FToken (lit "a") 1 2 0 1 (WordId 0 true) []])
    (run_token_filter path_env TFUppercase [FToken (lit "a") 10 20 0 1 (WordId 0 true) []]) /\
  analyze (analyzer_of path_env (AnalyzerDef [] t [TFReadingForm IPADIC])) (lit "ab") = Some Panic.
Proof.
  destruct later_case as [[t d]|] eqn:E; [|vm_compute in E; discriminate]. exists t, d. split; [reflexivity|].
  assert (X : later_case = Some (t, d)) by exact E. vm_compute in X. injection X as <- <-. repeat split; try (vm_compute; reflexivity).
  exact (C103_offsets path_env TFUppercase (fun o => 10 * o)%N [FToken (lit "a") 1 2 0 1 (WordId 0 true) []]).
Qed.
