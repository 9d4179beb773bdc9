(** An example environment and example configurations. *)
From Coq Require Import String.
From Coq Require Import List NArith ZArith Bool.
From Verif Require Import MBase MUtf8 MText MCodec MDict MCharDef MUnk MLattice MTokenizer MDetails MBincode MBuild MCharFilter MAnalyzer MTokenFilter
  MConfig XSample.
Import ListNotations.
Local Open Scope string_scope.
Local Open Scope list_scope.

(* JSON texts "{}" and "{\"a\":1}" only, no regular expression but "x", IPADIC only *)
Definition sample_parse (s : str) : option value :=
  if str_eqb s (lit "{}") then Some (VObj [])
  else if str_eqb s (lit "{a:1}") then Some (VObj [(lit "a", VInt 1)])
  else if str_eqb s (lit "{min:2}") then Some (VObj [(lit "min", VInt 2)]) else None.
Definition upper_char (c : char) : char := if ((97 <=? c) && (c <=? 122))%N then (c - 32)%N else c.
Definition sample_dictionary : dictionary := t_dictionary (sample Normal [sample_unk]).
Definition sample_env : env :=
  Env sample_parse (fun _ => []) (fun p => if str_eqb p (lit "x") then Some (Regex (fun _ => []) (fun _ _ r => r)) else None) (fun s => map (fun c => [c]) s)
    (fun _ s => s) (fun s => s) (map upper_char) (fun _ s => s) (fun _ => None)
    (fun k => match k with IPADIC => Some (Ok sample_dictionary) | _ => None end)
    (fun _ => None) (fun _ => []) (fun _ => Ok []).

Definition obj (l : list (string * value)) : value := VObj (map (fun kv => (lit (fst kv), snd kv)) l).
Definition sample_top : list (str * value) :=
  [(lit "character_filters", VArr [obj [("kind", VStr (lit "mapping"));
                                        ("args", obj [("mapping", obj [("z", VStr (lit "q"))])])]]);
   (lit "tokenizer", obj [("dictionary", obj [("kind", VStr (lit "ipadic"))]); ("mode", VStr (lit "normal"))]);
   (lit "token_filters", VArr [obj [("comment", VNull)]; obj [("kind", VStr (lit "uppercase"))];
                               obj [("kind", VStr (lit "length")); ("args", obj [("min", VInt 1)])]])].
