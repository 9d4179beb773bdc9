(** The tokenizer: lindera-tokenizer/src/tokenizer.rs, token.rs and lindera-core/src/dictionary.rs *)
From Coq Require Import List NArith ZArith Bool String.
From Verif Require Import MBase MUtf8 MText MCodec MDict MCharDef MUnk MLattice.
Import ListNotations.

(* lindera-core/src/dictionary.rs:13-21 *)
Record dictionary := Dictionary {
  d_dict : prefix_dict;
  d_matrix : conn_matrix;
  d_chardef : char_definitions;
  d_unknown : unknown_dictionary;
  d_words_idx : list N;
  d_words : list N
}.

(* lindera-core/src/dictionary.rs:44-49 *)
Record user_dictionary := UserDictionary {
  u_dict : prefix_dict;
  u_words_idx : list N;
  u_words : list N
}.

(* lindera-tokenizer/src/tokenizer.rs:155-166 *)
Record tokenizer := Tokenizer {
  t_dictionary : dictionary;
  t_user : option user_dictionary;
  t_mode : mode
}.

(* lindera-tokenizer/src/token.rs:9-38, without the dictionary references and the details cache (see MDetails.v) *)
Record token := Token {
  tk_text : str;
  tk_start : nat;
  tk_end : nat;
  tk_position : nat;
  tk_position_length : nat;
  tk_word : word_id
}.

(* lindera-tokenizer/src/tokenizer.rs:231: '。' '、' '\n' '\t' *)
Definition is_delimiter (c : char) : bool :=
  (c =? 0x3002)%N || (c =? 0x3001)%N || (c =? 10)%N || (c =? 9)%N.

(* lindera-tokenizer/src/tokenizer.rs:246-276: the loop over the offsets of one sentence.  State: byte_position, position. *)
Fixpoint sentence_tokens (sentence : str) (offsets : list (nat * word_id)) (byte_position position : nat)
  : res (list token * nat * nat) :=
  match offsets with
  | [] => Ok ([], byte_position, position)
  | (byte_start, w) :: r =>
    let byte_end := match r with [] => blen sentence | (next_start, _) :: _ => next_start end in
    do surface <- str_range sentence byte_start byte_end;
    let token_end := (byte_position + blen surface)%nat in
    do '(ts, bp, p) <- sentence_tokens sentence r token_end (S position);
    Ok (Token surface byte_position token_end position 1 w :: ts, bp, p)
  end.

(* The state of the loop over sentences: lattice, tokens so far, byte_position, position.
   lindera-tokenizer/src/tokenizer.rs:224-231. *)
Definition tok_state := (lattice * list token * nat * nat)%type.

(* lindera-tokenizer/src/tokenizer.rs:231-277, body of the loop over sentences.  None = tokens_offset would not terminate. *)
Definition tokenize_sentence (t : tokenizer) (st : tok_state) (sentence : str) : option (res tok_state) :=
  let '(l, tokens, bp, p) := st in
  let d := t_dictionary t in
  match set_text l (d_dict d) (option_map u_dict (t_user t)) (d_chardef d) (d_unknown d) sentence (t_mode t) with
  | Ok l1 =>
    match calculate_path_costs (d_matrix d) (t_mode t) l1 with
    | Ok l2 =>
      match tokens_offset l2 with
      | None => None
      | Some (Ok offsets) =>
        Some (do '(ts, bp', p') <- sentence_tokens sentence offsets bp p; Ok (l2, tokens ++ ts, bp', p'))
      | Some (Err k) => Some (Err k)
      | Some Panic => Some Panic
      end
    | Err k => Some (Err k)
    | Panic => Some Panic
    end
  | Err k => Some (Err k)
  | Panic => Some Panic
  end.

(* lindera-tokenizer/src/tokenizer.rs:231-277: the loop *)
Fixpoint tokenize_sentences (t : tokenizer) (sentences : list str) (st : tok_state) : option (res tok_state) :=
  match sentences with
  | [] => Some (Ok st)
  | s :: r =>
    match tokenize_sentence t st s with
    | Some (Ok st') => tokenize_sentences t r st'
    | o => o
    end
  end.

(* lindera-tokenizer/src/tokenizer.rs:223-280.  `if text.is_empty() { continue; }` never fires inside the loop: an empty text has no pieces. *)
Definition tokenize (t : tokenizer) (text : str) : option (res (list token)) :=
  match tokenize_sentences t (split_inclusive is_delimiter text) (default_lattice, [], 0%nat, 0%nat) with
  | None => None
  | Some r => Some (do '(_, ts, _, _) <- r; Ok ts)
  end.
