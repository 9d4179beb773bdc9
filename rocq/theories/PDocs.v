(** C93: the dictionaries built from the stand-in sources on docs.rs. *)
From Coq Require Import String.
From Coq Require Import List NArith ZArith Bool Lia.
From Verif Require Import MBase MUtf8 MText MCodec MDict MTokenizer MLattice MBuild MConfig MBuilders MDocs STok SBuilders SData SDocs LUtf8 LBuilders LEmbedded LDocs XData XConfig XBuilders.
Import ListNotations.
Local Open Scope string_scope.
Local Open Scope list_scope.

(* the build of every kind succeeds, and what is loaded from its files knows one word, which it panics on *)
Theorem C93_files be e euc k dir : docs_ready be e euc k dir -> be_compress be = false ->
  exists files d, build_dictionary be k dir = Ok files /\ docs_only k d /\ (forall out, files_at e out files -> load_dictionary e out = Ok d).
Proof. intros R C. destruct (docs_loads _ _ _ _ _ R C) as (files & B & L). exists files, (docs_dictionary k). split; [exact B|]. split; [apply docs_tokens|exact L]. Qed.
Print Assumptions C93_files.

(* the same for the dictionary inside the program, compressed or not *)
Theorem C93_embedded be e euc k dir feature files get : docs_ready be e euc k dir -> codecs_inverse (be_codecs be) -> codecs_bytes (be_codecs be) -> yada_bytes be ->
  build_dictionary (with_compress feature be) k dir = Ok files -> contents get files ->
  exists d, embedded_dictionary e (be_codecs be) feature get = Ok d /\ docs_only k d.
Proof. intros R CI CB YB B G. exists (docs_dictionary k). split; [exact (docs_embeds _ _ _ _ _ _ _ R CI CB YB B _ G)|apply docs_tokens]. Qed.
Print Assumptions C93_embedded.

(* an environment as required; EUC-JP is played by bytes one greater *)
Definition ex_euc (s : str) : list N := map (fun b => (b + 1)%N) (utf8 s).
Definition ex_docs_env (k : dictionary_kind) : env :=
  let e := file_env (put (lit "in") (docs_files ex_euc k)) in
  Env (e_parse e) (e_pretty e) (e_regex e) (e_graphemes e) (e_form e) (e_lower e) (e_upper e) (e_kana e) (e_block e) (e_embedded e)
    (e_read e) (read_keys []) (fun bytes => if str_eqb bytes (utf8 (docs_line k ++ [10%N])) then Ok [split_char 44%N (docs_line k)] else Err EParse).
Definition ex_docs (k : dictionary_kind) : build_env :=
  BuildEnv (ex_docs_env k) (fun _ b => b) (map (fun b => (b - 1)%N)) (fun _ => Ok [lit "dummy_dict.csv"]) sample_yada codecs_sample false.

Lemma ex_docs_ready k : docs_ready (ex_docs k) (ex_docs_env k) ex_euc k (lit "in").
Proof.
  split.
  - intros name bytes I. refine (put_files_at (docs_files ex_euc k) (lit "in") _ name bytes I). cbn [docs_files map fst].
    apply (NoDup_count_occ' (list_eq_dec N.eq_dec)). intros x J. cbn [In] in J. repeat (destruct J as [<-|J]; [vm_compute; reflexivity|]). destruct J.
  - intros enc s A. cbn [ex_docs be_text]. induction A as [|c s C A IH]; [reflexivity|]. unfold utf8 in *. cbn [flat_map]. rewrite IH. unfold utf8_char.
    replace (c <? 128)%N with true by (symmetry; apply N.ltb_lt; exact C). reflexivity.
  - intros s. cbn [ex_docs be_transcode]. unfold ex_euc. rewrite map_map. rewrite <- (map_id (utf8 s)) at 2. apply map_ext. intros b. lia.
  - reflexivity.
  - cbn [ex_docs be_env ex_docs_env e_csv]. rewrite (proj2 (str_eqb_spec _ _) eq_refl). reflexivity.
  - assert (F : few_short [docs_word k] = true) by (destruct k; vm_compute; reflexivity).
    exact (sample_yada_works false [] [] [docs_word k] F).
Qed.

Example C93_ex : docs_ready (ex_docs IPADIC) (ex_docs_env IPADIC) ex_euc IPADIC (lit "in") /\ be_compress (ex_docs IPADIC) = false /\
  docs_word KoDic = [0xD14C; 0xC2A4; 0xD2B8]%N /\
  (exists files, build_dictionary (ex_docs IPADIC) IPADIC (lit "in") = Ok files /\
     map fst files = map lit ["char_def.bin"; "unk.bin"; "dict.words"; "dict.wordsidx"; "dict.da"; "dict.vals"; "matrix.mtx"]) /\
  tokenize (Tokenizer (docs_dictionary IPADIC) None Normal) (lit "abc") = Some (Ok []) /\
  tokenize (Tokenizer (docs_dictionary IPADIC) None Normal) (lit "a" ++ docs_word IPADIC) = Some (Ok []) /\
  tokenize (Tokenizer (docs_dictionary IPADIC) None Normal) (docs_word IPADIC) = Some Panic.
Proof.
  split; [exact (ex_docs_ready IPADIC)|]. split; [reflexivity|]. split; [reflexivity|].
  split; [eexists; split; vm_compute; reflexivity|]. split; [vm_compute; reflexivity|]. split; vm_compute; reflexivity.
Qed.
