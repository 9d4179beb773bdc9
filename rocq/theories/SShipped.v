(** Specification for property C104: what the shipped configuration makes of the tokens that it filters. *)
From Coq Require Import String.
From Coq Require Import List NArith.
From Verif Require Import MBase MUtf8 MText MBuild MAnalyzer STokenFilter SNumber.
Import ListNotations.
Local Open Scope string_scope.
Local Open Scope list_scope.

(** 名詞 and 数, as code points *)
Definition noun_parts : list str := [[0x540D; 0x8A5E]; [0x6570]]%N.
Definition noun_number : str := [0x540D; 0x8A5E; 0x2C; 0x6570]%N.

(** The 25 stop tags, as code points: 接続詞, 助詞, 助詞-格助詞, 助詞-格助詞-一般, 助詞-格助詞-引用, 助詞-格助詞-連語, 助詞-係助詞, 助詞-副助詞, 助詞-間投助詞, 助詞-並立助詞, 助詞-終助詞, 助詞-副助詞／並立助詞／終助詞, 助詞-連体化, 助詞-副詞化, 助詞-特殊, 助動詞, 記号, 記号-一般, 記号-読点, 記号-句点, 記号-空白, 記号-括弧閉, その他-間投, フィラー, 非言語音 *)
Definition stop_words : list str :=
  [[0x63A5; 0x7D9A; 0x8A5E];
   [0x52A9; 0x8A5E];
   [0x52A9; 0x8A5E; 0x2C; 0x683C; 0x52A9; 0x8A5E];
   [0x52A9; 0x8A5E; 0x2C; 0x683C; 0x52A9; 0x8A5E; 0x2C; 0x4E00; 0x822C];
   [0x52A9; 0x8A5E; 0x2C; 0x683C; 0x52A9; 0x8A5E; 0x2C; 0x5F15; 0x7528];
   [0x52A9; 0x8A5E; 0x2C; 0x683C; 0x52A9; 0x8A5E; 0x2C; 0x9023; 0x8A9E];
   [0x52A9; 0x8A5E; 0x2C; 0x4FC2; 0x52A9; 0x8A5E];
   [0x52A9; 0x8A5E; 0x2C; 0x526F; 0x52A9; 0x8A5E];
   [0x52A9; 0x8A5E; 0x2C; 0x9593; 0x6295; 0x52A9; 0x8A5E];
   [0x52A9; 0x8A5E; 0x2C; 0x4E26; 0x7ACB; 0x52A9; 0x8A5E];
   [0x52A9; 0x8A5E; 0x2C; 0x7D42; 0x52A9; 0x8A5E];
   [0x52A9; 0x8A5E; 0x2C; 0x526F; 0x52A9; 0x8A5E; 0xFF0F; 0x4E26; 0x7ACB; 0x52A9; 0x8A5E; 0xFF0F; 0x7D42; 0x52A9; 0x8A5E];
   [0x52A9; 0x8A5E; 0x2C; 0x9023; 0x4F53; 0x5316];
   [0x52A9; 0x8A5E; 0x2C; 0x526F; 0x8A5E; 0x5316];
   [0x52A9; 0x8A5E; 0x2C; 0x7279; 0x6B8A];
   [0x52A9; 0x52D5; 0x8A5E];
   [0x8A18; 0x53F7];
   [0x8A18; 0x53F7; 0x2C; 0x4E00; 0x822C];
   [0x8A18; 0x53F7; 0x2C; 0x8AAD; 0x70B9];
   [0x8A18; 0x53F7; 0x2C; 0x53E5; 0x70B9];
   [0x8A18; 0x53F7; 0x2C; 0x7A7A; 0x767D];
   [0x8A18; 0x53F7; 0x2C; 0x62EC; 0x5F27; 0x9589];
   [0x305D; 0x306E; 0x4ED6; 0x2C; 0x9593; 0x6295];
   [0x30D5; 0x30A3; 0x30E9; 0x30FC];
   [0x975E; 0x8A00; 0x8A9E; 0x97F3]]%N.

(** Some character outside all Unicode blocks with nothing but katakana before it *)
Definition unblocked (find_block : char -> option (N * N)) (text : str) : Prop :=
  exists a c b, text = a ++ c :: b /\ Forall in_katakana a /\ find_block c = None.

(** The text of number words is read as C74 says, the text of others stays *)
Definition number_read (tk tk' : ftoken) : Prop :=
  only_text tk tk' /\ (has_tag [noun_number] tk -> read_as None (ft_text tk) (ft_text tk')) /\ (~ has_tag [noun_number] tk -> ft_text tk' = ft_text tk).
Definition stem_cut (tk tk' : ftoken) : Prop := only_text tk tk' /\ stemmed 3 (ft_text tk) (ft_text tk').

(** Number words are joined and read, then words with a stop tag go *)
Inductive joined_read_stopped (stop : list str) (given : list ftoken) : list ftoken -> Prop :=
| joined_read joined read kept :
    compounded (has_tag [noun_number]) (new_details IPADIC (Some noun_parts)) given joined ->
    Forall2 number_read joined read -> selected (fun tk => ~ has_tag stop tk) read kept ->
    joined_read_stopped stop given kept.
(** ... unless a joined number cannot be read *)
Definition unreadable (given : list ftoken) : Prop :=
  exists joined tk, compounded (has_tag [noun_number]) (new_details IPADIC (Some noun_parts)) given joined /\
    In tk joined /\ has_tag [noun_number] tk /\ crowded (ft_text tk).

Inductive example_outcome (stop : list str) (given : list ftoken) : res (list ftoken) -> Prop :=
| example_panics : unreadable given -> example_outcome stop given Panic
| example_gives out : ~ unreadable given -> joined_read_stopped stop given out -> example_outcome stop given (Ok out).

Inductive shipped_outcome (find_block : char -> option (N * N)) (stop : list str) (given : list ftoken) : res (list ftoken) -> Prop :=
| shipped_number : unreadable given -> shipped_outcome find_block stop given Panic
| shipped_block kept tk : joined_read_stopped stop given kept -> In tk kept -> unblocked find_block (ft_text tk) -> shipped_outcome find_block stop given Panic
| shipped_gives kept out : ~ unreadable given -> joined_read_stopped stop given kept -> Forall (fun tk => ~ unblocked find_block (ft_text tk)) kept ->
    Forall2 stem_cut kept out -> shipped_outcome find_block stop given (Ok out).
