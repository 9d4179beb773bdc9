(** Which dictionary a token comes from, by its word id. *)
From Coq Require Import List NArith ZArith Bool Lia ZifyBool ZifyNat ZifyN.
From Verif Require Import MBase MUtf8 MText MCodec MDict MCharDef MUnk MLattice MTokenizer STok LBase LUtf8 LTok.
Import ListNotations.

Lemma token_source t A text ts tok : represents t A -> marked A -> valid_str text -> tokenize t text = Some (Ok ts) -> In tok ts ->
  (is_unknown (tk_word tok) = true ->
     exists e c r ord k, tk_word tok = we_id e /\ tk_text tok = c :: r /\ has_cat A ord k c /\ In e (a_unk A k)) /\
  (is_unknown (tk_word tok) = false -> wsys (tk_word tok) = true ->
     exists e, In e (entries_of (a_sys A) (tk_text tok)) /\ tk_word tok = we_id e) /\
  (is_unknown (tk_word tok) = false -> wsys (tk_word tok) = false ->
     exists e, In e (entries_of (a_usr A) (tk_text tok)) /\ tk_word tok = we_id e).
Proof.
  intros R [M1 M2 M3] V T I. destruct (token_provenance t A R text ts tok V T I) as (e & W & P).
  rewrite W. unfold is_unknown. destruct P as [P|[P|(c & r & ord & k & E & HC & P)]].
  - destruct (M2 _ _ P) as [F1 F2]. split; [intros U; apply N.eqb_eq in U; contradiction|]. split; [congruence|]. eauto.
  - destruct (M1 _ _ P) as [F1 F2]. split; [intros U; apply N.eqb_eq in U; contradiction|]. split; [|congruence]. eauto.
  - rewrite (M3 _ _ P). split; [|split; intros U; discriminate]. intros _. exists e, c, r, ord, k. auto.
Qed.

From Verif Require Import LScan.

Lemma used_reusable t A l : represents t A -> used_lattice t l -> reusable l.
Proof.
  intros R H. induction H as [|l s toks bp p l' toks' bp' p' H IH V NE E]; [apply default_reusable|].
  destruct (lattice_reuse t A R s l toks bp p V NE IH) as (l1 & l2 & ts & bp2 & p2 & RU & _ & E2).
  rewrite E in E2. injection E2 as -> _ _ _. exact RU.
Qed.

Lemma lattice_history t A l s toks bp p : represents t A -> used_lattice t l -> valid_str s -> s <> [] ->
  exists l1 l2 ts bp' p',
    tokenize_sentence t (default_lattice, toks, bp, p) s = Some (Ok (l1, toks ++ ts, bp', p')) /\
    tokenize_sentence t (l, toks, bp, p) s = Some (Ok (l2, toks ++ ts, bp', p')).
Proof.
  intros R U V NE. destruct (lattice_reuse t A R s l toks bp p V NE (used_reusable t A l R U)) as (l1 & l2 & ts & bp2 & p2 & _ & E1 & E2).
  exists l1, l2, ts, bp2, p2. auto.
Qed.
