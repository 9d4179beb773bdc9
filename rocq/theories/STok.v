(** Specification vocabulary for tokenization.  Nothing here calls the lattice or the tokenizer, except sentence_lattice,
   which names the call that theorems about the lattice speak of. *)
From Coq Require Import List NArith ZArith Bool.
From Verif Require Import MBase MUtf8 MCodec MDict MCharDef MUnk MLattice MTokenizer.
Import ListNotations.

(** ** Abstract dictionaries *)

(* What a tokenizer's dictionaries mean: surfaces with their entries, categories of characters, category switches,
   unknown-word entries of a category, connection costs. *)
Record adict := ADict {
  a_sys : list (str * list word_entry);
  a_usr : list (str * list word_entry);
  a_cats : char -> list nat;
  a_invoke : nat -> bool;
  a_group : nat -> bool;
  a_unk : nat -> list word_entry;
  a_conn : N -> N -> Z;        (* right id of the left word, left id of the right word *)
  a_fsize : N;                 (* right ids of words are below this *)
  a_bsize : N                  (* left ids of words are below this *)
}.

(* the entries listed for a surface *)
Fixpoint entries_of (tbl : list (str * list word_entry)) (k : str) : list word_entry :=
  match tbl with
  | [] => []
  | (k', es) :: r => if str_eqb k' k then es else entries_of r k
  end.

(* all (surface, entry) pairs whose surface is a non-empty prefix of s, shortest surface first *)
Definition prefix_words (tbl : list (str * list word_entry)) (s : str) : list (str * word_entry) :=
  flat_map (fun n => map (pair (firstn n s)) (entries_of tbl (firstn n s))) (seq 1 (length s)).

(* the dictionary d stands for the table tbl *)
Definition dict_means (d : prefix_dict) (tbl : list (str * list word_entry)) : Prop :=
  forall s, valid_str s ->
    pd_prefix d s = Ok (map (fun '(k, e) => (blen k, e)) (prefix_words tbl s)).

(* a word entry whose context ids are inside the matrix and whose cost is an i16 *)
Definition entry_ok (A : adict) (e : word_entry) : Prop :=
  (we_right e < a_fsize A)%N /\ (we_left e < a_bsize A)%N /\ is_i16 (we_cost e).

Definition table_ok (A : adict) (tbl : list (str * list word_entry)) : Prop :=
  forall k e, In e (entries_of tbl k) -> entry_ok A e.

(* the tokenizer t stands for the abstract dictionary A *)
Record represents (t : tokenizer) (A : adict) : Prop := {
  rep_sys : dict_means (d_dict (t_dictionary t)) (a_sys A);
  rep_usr : match t_user t with
            | Some u => dict_means (u_dict u) (a_usr A)
            | None => a_usr A = []
            end;
  rep_cats : forall c, valid_char c -> lookup_categories (d_chardef (t_dictionary t)) c = Ok (a_cats A c);
  rep_def : forall c k, valid_char c -> In k (a_cats A c) ->
            exists len, lookup_definition (d_chardef (t_dictionary t)) k = Ok (CategoryData (a_invoke A k) (a_group A k) len);
  rep_unk : forall c k, valid_char c -> In k (a_cats A c) ->
            exists ids, ud_lookup_word_ids (d_unknown (t_dictionary t)) k = Ok ids
              /\ mapM (ud_word_entry (d_unknown (t_dictionary t))) ids = Ok (a_unk A k);
  rep_conn : forall f b, (f < a_fsize A)%N -> (b < a_bsize A)%N ->
             cm_cost (d_matrix (t_dictionary t)) f b = Ok (a_conn A f b) /\ is_i16 (a_conn A f b);
  rep_sizes : (0 < a_fsize A)%N /\ (0 < a_bsize A)%N;
  rep_sys_ok : table_ok A (a_sys A);
  rep_usr_ok : table_ok A (a_usr A);
  rep_unk_ok : forall c k e, valid_char c -> In k (a_cats A c) -> In e (a_unk A k) -> entry_ok A e
}.

(* every character of the text has a category, and each of its categories has an unknown-word entry *)
Definition covered (A : adict) (text : str) : Prop :=
  forall c, In c text -> a_cats A c <> [] /\ (forall k, In k (a_cats A c) -> a_unk A k <> []).

(** ** Candidate words *)

(* a dictionary word (user or system) that the text s starts with *)
Definition dict_word (A : adict) (s : str) (k : str) (e : word_entry) : Prop :=
  k <> [] /\ (exists r, s = k ++ r) /\ (In e (entries_of (a_usr A) k) \/ In e (entries_of (a_sys A) k)).

Definition no_dict_word (A : adict) (s : str) : Prop := forall k e, ~ dict_word A s k e.

(* character c has category k at rank ord *)
Definition has_cat (A : adict) (ord : nat) (k : nat) (c : char) : Prop := nth_error (a_cats A c) ord = Some k.

(* w is the unknown-word span at the start of s for the category k of rank ord of its first character: one character, or
   for a grouping category the longest run of characters with that category at that rank *)
Definition unk_span (A : adict) (ord k : nat) (s w : str) : Prop :=
  exists c run rest, s = c :: run ++ rest /\ w = c :: run /\
    if a_group A k
    then Forall (has_cat A ord k) run /\ (forall d rest', rest = d :: rest' -> ~ has_cat A ord k d)
    else run = [].

(* an unknown word that the text s may start with *)
Definition unknown_word (A : adict) (s : str) (w : str) (e : word_entry) : Prop :=
  exists c r ord k, s = c :: r /\ has_cat A ord k c /\
    (a_invoke A k = true \/ no_dict_word A s) /\
    unk_span A ord k s w /\ In e (a_unk A k).

Definition candidate (A : adict) (s : str) (w : str) (e : word_entry) : Prop :=
  dict_word A s w e \/ unknown_word A s w e.

(** ** Segmentations and their cost *)

Definition word := (str * word_entry)%type.

(* a segmentation of the text s into words allowed by P, where P text_before text_from_here word_surface word_entry *)
Inductive seg (P : str -> str -> str -> word_entry -> Prop) : str -> str -> list word -> Prop :=
| seg_nil : forall pre, seg P pre [] []
| seg_cons : forall pre k e rest ws, k <> [] -> P pre (k ++ rest) k e -> seg P (pre ++ k) rest ws ->
             seg P pre (k ++ rest) ((k, e) :: ws).

Definition segmentation (A : adict) (s : str) (ws : list word) : Prop :=
  seg (fun _ => candidate A) [] s ws.

(* segmentations made of dictionary words only *)
Definition dict_segmentation (A : adict) (s : str) (ws : list word) : Prop :=
  seg (fun _ => dict_word A) [] s ws.

Definition kanji (c : char) : bool := (0x4E00 <=? c)%N && (c <=? 0x9FAF)%N.

(* the decompose-mode penalty of a surface, in unbounded integers *)
Definition surface_penalty (m : mode) (k : str) : Z :=
  match m with
  | Normal => 0%Z
  | Decompose p =>
    let n := Z.of_nat (blen k / 3) in
    let kt := Z.of_N (kanji_threshold p) in
    let ot := Z.of_N (other_threshold p) in
    if (n <=? kt)%Z then 0%Z
    else if forallb kanji k then ((n - kt) * kanji_penalty p)%Z
    else if (ot <? n)%Z then ((n - ot) * other_penalty p)%Z
    else 0%Z
  end.

(* cost of a segmentation whose previous word has right id f: connections, word costs, penalties, and the connection to
   the end of sentence (context id 0) *)
Fixpoint cost_from (A : adict) (m : mode) (f : N) (ws : list word) : Z :=
  match ws with
  | [] => a_conn A f 0%N
  | (k, e) :: r => (a_conn A f (we_left e) + we_cost e + surface_penalty m k + cost_from A m (we_right e) r)%Z
  end.

(* the beginning of sentence has context id 0 *)
Definition seg_cost (A : adict) (m : mode) (ws : list word) : Z := cost_from A m 0%N ws.

(* the largest penalty of the mode for one character beyond a threshold *)
Definition penalty_max (m : mode) : Z :=
  match m with Normal => 0%Z | Decompose p => Z.max (Z.abs (kanji_penalty p)) (Z.abs (other_penalty p)) end.

(* the sentence cannot overflow an i32: each character adds at most a word cost and a connection cost, each byte at most
   a third of a penalty *)
Definition fits_i32 (m : mode) (s : str) : Prop :=
  (3 * 65536 * Z.of_nat (List.length s) + penalty_max m * Z.of_nat (blen s) + 3 * 32768 < 3 * 2147483647)%Z.

(** ** Token lists *)

(* the tokens cover the text from byte offset off on, contiguously, numbered from pos *)
Fixpoint tiles_from (off pos : nat) (text : str) (ts : list token) : Prop :=
  match ts with
  | [] => text = []
  | t :: r =>
    tk_text t <> [] /\
    tk_start t = off /\ tk_end t = (off + blen (tk_text t))%nat /\
    tk_position t = pos /\ tk_position_length t = 1%nat /\
    exists rest, text = tk_text t ++ rest /\ tiles_from (tk_end t) (S pos) rest r
  end.
Definition tiles (text : str) (ts : list token) : Prop := tiles_from 0 0 text ts.

(* the tokens carry the surfaces and word ids of the words *)
Definition tokens_of_words (ts : list token) (ws : list word) : Prop :=
  map (fun t => (tk_text t, tk_word t)) ts = map (fun '(k, e) => (k, we_id e)) ws.

(* tokens moved by a number of bytes and positions *)
Definition shift_token (bytes positions : nat) (t : token) : token :=
  Token (tk_text t) (bytes + tk_start t) (bytes + tk_end t) (positions + tk_position t) (tk_position_length t) (tk_word t).

(* where the next token would start *)
Definition end_of (ts : list token) : nat := match rev ts with [] => 0%nat | t :: _ => tk_end t end.

(** ** Sentences *)

Definition delimiter (c : char) : Prop := In c [0x3002; 0x3001; 10; 9]%N.

(* a piece that ends in its only delimiter *)
Definition closed_sentence (s : str) : Prop :=
  exists body c, s = body ++ [c] /\ delimiter c /\ Forall (fun x => ~ delimiter x) body.

(* a last piece without delimiter *)
Definition open_sentence (s : str) : Prop := s <> [] /\ Forall (fun x => ~ delimiter x) s.

(* the pieces of a text *)
Inductive sentences : str -> list str -> Prop :=
| sent_nil : sentences [] []
| sent_open : forall s, open_sentence s -> sentences s [s]
| sent_closed : forall s rest ss, closed_sentence s -> sentences rest ss -> sentences (s ++ rest) (s :: ss).

(** ** What the search considers *)

(* positions reachable by words allowed by W; a position is the text before it *)
Inductive reach (W : str -> str -> str -> word_entry -> Prop) (s : str) : str -> Prop :=
| reach_nil : reach W s []
| reach_step : forall pre k rest e, reach W s pre -> s = pre ++ k ++ rest -> W pre (k ++ rest) k e -> reach W s (pre ++ k).

(* The words W (a choice among the candidates of sentence s) contain every dictionary word at a reachable position; the
   unknown words U among them, in search mode, are all those allowed by char.def at reachable positions; in normal mode
   those at reachable positions that are not strictly inside another word of U. *)
Record considered (A : adict) (m : mode) (s : str) (W U : str -> str -> str -> word_entry -> Prop) : Prop := {
  con_split : forall pre r k e, W pre r k e <-> (s = pre ++ r /\ reach W s pre /\ (dict_word A r k e \/ U pre r k e));
  con_unknown : forall pre r k e, U pre r k e -> s = pre ++ r /\ reach W s pre /\ unknown_word A r k e;
  con_open : forall pre r k e, s = pre ++ r -> reach W s pre -> unknown_word A r k e ->
    (is_search m = true \/
     forall pre' r' k' e', U pre' r' k' e' -> ~ (blen pre' < blen pre < blen pre' + blen k')%nat) ->
    U pre r k e
}.

(* ws is the cheapest segmentation of the sentence s into considered words *)
Definition best_segmentation (A : adict) (m : mode) (s : str) (ws : list word) : Prop :=
  exists W U, considered A m s W U /\ seg W [] s ws /\
    forall ws', seg W [] s ws' -> (seg_cost A m ws <= seg_cost A m ws')%Z.

(** ** Ties *)

(* x stands before y in the list l *)
Definition before {X} (l : list X) (x y : X) : Prop := exists a b c, l = a ++ x :: b ++ y :: c.

(* an unknown word by the category cat of rank ord of its first character *)
Definition unknown_by (A : adict) (s : str) (ord cat : nat) (w : str) (e : word_entry) : Prop :=
  exists c r, s = c :: r /\ has_cat A ord cat c /\ (a_invoke A cat = true \/ no_dict_word A s) /\
    unk_span A ord cat s w /\ In e (a_unk A cat).

(* the order of the entries that lie over the same word k at the start of s: user entries before system entries before
   unknown ones, and each in their own order *)
Inductive ranked (A : adict) (s k : str) (e e' : word_entry) : Prop :=
| ranked_dict : before (entries_of (a_usr A) k ++ entries_of (a_sys A) k) e e' -> ranked A s k e e'
| ranked_known : In e (entries_of (a_usr A) k ++ entries_of (a_sys A) k) -> unknown_word A s k e' -> ranked A s k e e'
| ranked_category : forall ord cat ord' cat', unknown_by A s ord cat k e -> unknown_by A s ord' cat' k e' -> ord < ord' -> ranked A s k e e'
| ranked_unknown : forall ord cat, unknown_by A s ord cat k e -> unknown_by A s ord cat k e' -> before (a_unk A cat) e e' -> ranked A s k e e'.

(* of two segmentations of the same cost ws is preferred: going from the end to the first difference, it has the longer
   word there, or the same word with an entry that comes first *)
Definition wins_tie (A : adict) (ws ws' : list word) : Prop :=
  ws = ws' \/
  exists a k e b k' e' z, ws = a ++ (k, e) :: z /\ ws' = b ++ (k', e') :: z /\ (k, e) <> (k', e') /\
    (length k' < length k \/ (k' = k /\ ranked A (k ++ concat (map fst z)) k e e')).

(* ws is the cheapest segmentation of the sentence s into considered words, and the preferred one among the cheapest *)
Definition first_best (A : adict) (m : mode) (s : str) (ws : list word) : Prop :=
  exists W U, considered A m s W U /\ seg W [] s ws /\
    forall ws', seg W [] s ws' ->
      (seg_cost A m ws < seg_cost A m ws')%Z \/ (seg_cost A m ws = seg_cost A m ws' /\ wins_tie A ws ws').

(** ** The search, exactly *)

(* s starts with the unknown-word span w, generated by the category of rank ord of its first character *)
Definition span_at (A : adict) (s : str) (ord : nat) (w : str) : Prop :=
  exists c r cat, s = c :: r /\ has_cat A ord cat c /\ (a_invoke A cat = true \/ no_dict_word A s) /\ unk_span A ord cat s w.

(* w is the span of the last category that generates one *)
Definition last_span (A : adict) (s w : str) : Prop :=
  exists ord, span_at A s ord w /\ forall ord' w', span_at A s ord' w' -> ord' <= ord.

(* Act: the positions of sentence s at which unknown words are made. n is the end of the last span at the nearest of them
   before pre that has a span. *)
Definition last_end (A : adict) (s : str) (Act : str -> Prop) (pre : str) (n : nat) : Prop :=
  exists pre' r w, s = pre' ++ r /\ Act pre' /\ blen pre' < blen pre /\ last_span A r w /\ n = blen pre' + blen w /\
    forall q r' ord w', s = q ++ r' -> Act q -> blen pre' < blen q < blen pre -> ~ span_at A r' ord w'.

(* W: the words the search looks at. At every reachable position these are the dictionary words, and the unknown words if
   the position is in Act: in search mode always, in normal mode if the last span ends at or before it. *)
Record searched (A : adict) (m : mode) (s : str) (W : str -> str -> str -> word_entry -> Prop) (Act : str -> Prop) : Prop := {
  srch_words : forall pre r k e, W pre r k e <->
    (s = pre ++ r /\ reach W s pre /\ (dict_word A r k e \/ (Act pre /\ unknown_word A r k e)));
  srch_active : forall pre, Act pre <->
    ((exists r, s = pre ++ r /\ r <> []) /\ reach W s pre /\
     (is_search m = true \/ forall n, last_end A s Act pre n -> n <= blen pre))
}.

(* the words found in the sentence s: none if the searched words do not reach its end, else the cheapest segmentation into
   searched words, preferred among the cheapest *)
Definition exact_answer (A : adict) (m : mode) (s : str) (ws : list word) : Prop :=
  exists W Act, searched A m s W Act /\
    ((ws = [] /\ forall ws', ~ seg W [] s ws') \/
     (seg W [] s ws /\
      (fits_i32 m s -> forall ws', seg W [] s ws' ->
        (seg_cost A m ws < seg_cost A m ws')%Z \/ (seg_cost A m ws = seg_cost A m ws' /\ wins_tie A ws ws')))).

(* no entry occurs twice: within one surface, within a category, in two categories of a character, or both as a word and
   as unknown *)
Record distinct_entries (A : adict) : Prop := {
  de_dict : forall k, NoDup (entries_of (a_usr A) k ++ entries_of (a_sys A) k);
  de_unk : forall k, NoDup (a_unk A k);
  de_cat : forall c k k' e, In k (a_cats A c) -> In k' (a_cats A c) -> In e (a_unk A k) -> In e (a_unk A k') -> k = k';
  de_kind : forall k cat e, In e (entries_of (a_usr A) k ++ entries_of (a_sys A) k) -> ~ In e (a_unk A cat);
  de_cats : forall c, NoDup (a_cats A c)
}.

(** ** Lattices *)

(* the lattice the tokenizer makes for a sentence: Lattice::default().set_text(...) *)
Definition sentence_lattice (t : tokenizer) (m : mode) (s : str) : res lattice :=
  set_text default_lattice (d_dict (t_dictionary t)) (option_map u_dict (t_user t)) (d_chardef (t_dictionary t))
    (d_unknown (t_dictionary t)) s m.

(* the edges other than the beginning and end of sentence, in the order in which they were made *)
Definition word_edges (l : lattice) : list edge := skipn 2 (edges l).

(* some word of the lattice ends at byte p, or the sentence starts there *)
Definition reached (l : lattice) (p : nat) : Prop := p = 0%nat \/ exists ed, In ed (word_edges l) /\ e_stop ed = p.

(* the edge lies over the word k standing after pre, with dictionary entry e *)
Definition edge_over (ed : edge) (pre k : str) (e : word_entry) : Prop :=
  e_start ed = blen pre /\ e_stop ed = (blen pre + blen k)%nat /\ e_kanji ed = forallb kanji k /\ e_entry ed = e.

(** ** Marks on word ids *)

(* system entries carry system ids, user entries user ids, unknown entries the id u32::MAX that no dictionary entry has *)
Record marked (A : adict) : Prop := {
  mark_sys : forall k e, In e (entries_of (a_sys A) k) -> wsys (we_id e) = true /\ wid (we_id e) <> 4294967295%N;
  mark_usr : forall k e, In e (entries_of (a_usr A) k) -> wsys (we_id e) = false /\ wid (we_id e) <> 4294967295%N;
  mark_unk : forall k e, In e (a_unk A k) -> wid (we_id e) = 4294967295%N
}.

(** ** Lattice histories *)

(* a lattice as it is after tokenizing any sequence of sentences, one after the other *)
Inductive used_lattice (t : tokenizer) : lattice -> Prop :=
| used_fresh : used_lattice t default_lattice
| used_again : forall l s toks bp p l' toks' bp' p', used_lattice t l -> valid_str s -> s <> [] ->
    tokenize_sentence t (l, toks, bp, p) s = Some (Ok (l', toks', bp', p')) -> used_lattice t l'.
