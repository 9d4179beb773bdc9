(** When the mode does not matter. *)
From Coq Require Import List NArith ZArith Bool.
From Verif Require Import MBase MUtf8 MText MCodec MDict MCharDef MUnk MLattice MTokenizer STok SFrame.
Import ListNotations.
Local Open Scope list_scope.

(* every piece of the text has the same penalty in both modes *)
Definition same_penalties (m m' : mode) (text : str) : Prop := forall k, part_of k text -> surface_penalty m k = surface_penalty m' k.

(* an unknown word at this place has one character: its category does not group, or the next character is not of that category at
   that rank *)
Definition alone (cd : char_definitions) (c : char) (rest : str) : Prop :=
  forall cats ord k data, lookup_categories cd c = Ok cats -> nth_error cats ord = Some k -> lookup_definition cd k = Ok data ->
    cd_group data = false \/
    match rest with
    | [] => True
    | c' :: _ => forall cats', lookup_categories cd c' = Ok cats' -> nth_error cats' ord <> Some k
    end.
Definition single_unknown (cd : char_definitions) (text : str) : Prop := forall a c rest, text = a ++ c :: rest -> alone cd c rest.
