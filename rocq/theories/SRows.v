(** The order of the rows of a dictionary source. *)
From Coq Require Import List NArith Bool.
From Verif Require Import MBase MUtf8 MText MDict MBuild MConfig MBuilders STok SBuild.
Import ListNotations.

(* the rows with one surface are the same, in the same order *)
Definition same_homographs (surface : row -> str) (rows rows' : list row) : Prop :=
  forall s, filter (fun r => str_eqb (surface r) s) rows = filter (fun r => str_eqb (surface r) s) rows'.

(* the same machine, except that it lists the files of a directory differently *)
Definition same_but_listing (be be' : build_env) : Prop :=
  be_env be = be_env be' /\ be_text be = be_text be' /\ be_transcode be = be_transcode be' /\ be_yada be = be_yada be' /\
  be_codecs be = be_codecs be' /\ be_compress be = be_compress be'.

(* no surface occurs in two of the files *)
Definition apart (key : row -> str) (contents : str -> list row) (names : list str) : Prop :=
  forall n n' r r', In n names -> In n' names -> n <> n' -> In r (contents n) -> In r' (contents n') -> key r <> key r'.
