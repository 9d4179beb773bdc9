(** C109 for the mapping token filter. *)
From Coq Require Import String.
From Coq Require Import List NArith ZArith Bool Lia.
From Verif Require Import MBase MUtf8 MText MCodec MDict MBuild MCharDef MTokenizer MCharFilter MAnalyzer MTokenFilter MOffset64 MTokenMap64 SCharFilter LTokenMap64.
Import ListNotations.
Local Open Scope list_scope.

(** C109: the mapping token filter gives the same in a debug build if the text of every token has fewer than 2^63 bytes. *)
Theorem C109_token_mapping : forall f ts, Forall (fun tk => fits_isize (blen (ft_text tk))) ts -> mapping_tokens_debug f ts = mapping_tokens f ts.
Proof. exact mapping_tokens_checked. Qed.
Print Assumptions C109_token_mapping.

Example C109_token_mapping_ex : exists f, mapping_new [(lit "y", lit "zzz"); (lit "xy", [])] = Ok f /\
  let tk := FToken (lit "yxyaxy") 0 6 0 1 (WordId 0 true) [] in
  fits_isize (blen (ft_text tk)) /\ exists out, mapping_tokens_debug f [tk] = Some (Ok out) /\ map ft_text out = [lit "zzza"].
Proof. eexists. split; [vm_compute; reflexivity|]. cbv zeta. split; [vm_compute; reflexivity|]. eexists. split; vm_compute; reflexivity. Qed.
