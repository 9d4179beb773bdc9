(** The program lindera: lindera-cli/src/main.rs with its options as they are typed. *)
From Coq Require Import String.
From Coq Require Import List NArith ZArith Bool.
From Verif Require Import MBase MUtf8 MText MCodec MDict MLattice MTokenizer MBuild MCharFilter MAnalyzer MTokenFilter MConfig MBuilders.
Import ListNotations.
Local Open Scope list_scope.

(* lindera-cli/src/main.rs:43-78: the options of the command tokenize.  That clap finds the values of the options in the arguments of
   the program, gives each at most once except the filters, and gives valid Unicode is not modelled. *)
Record typed_args := TypedArgs {
  ty_dic_type : option str;
  ty_dic_dir : option str;
  ty_user_dic_file : option str;
  ty_mode : option str;
  ty_output_format : option str;
  ty_character_filters : list str;
  ty_token_filters : list str;
  ty_input_file : option str
}.

(* lindera-cli/src/main.rs:43-78: clap reads dic_type and mode with from_str and puts in the default values; None if a value is refused.
   Without the feature filter the two lists of filters are not looked at: lindera-cli/src/main.rs:212-228. *)
Definition read_args (filters : bool) (t : typed_args) : option tokenize_args :=
  match match ty_dic_type t with Some s => do k <- kind_from_str s; Ok (Some k) | None => Ok None end,
        mode_from_str (match ty_mode t with Some s => s | None => lit "normal" end) with
  | Ok k, Ok m =>
    Some (TokenizeArgs k (ty_dic_dir t) (ty_user_dic_file t) m (match ty_output_format t with Some s => s | None => lit "mecab" end)
            (if filters then ty_character_filters t else []) (if filters then ty_token_filters t else []))
  | _, _ => None
  end.

(* lindera-cli/src/main.rs:28-33 with the options of build, 82-91 *)
Inductive command :=
| CmdList
| CmdTokenize (t : typed_args)
| CmdBuild (user : bool) (dic_type src dest : str).

(* How the program ends: clap refuses an option; or with what was printed, the files written and the result of main.  (No) ending is for
   an analysis that does not end.  Of a build that fails no files are given here (see MDisk.v).  lindera-cli/src/main.rs:116-124. *)
Inductive ending := Usage | Ended (printed : str) (files : list (str * list N)) (r : res unit) | Endless.

(* lindera-cli/src/main.rs:116-124, 126-131, 180-280 and 282-297.  A file that cannot be read at all is taken as one that cannot be
   opened; both give the same kind of error. *)
Definition cli_main (be : build_env) (filters : bool) (stdin : list N) (c : command) : ending :=
  let e := be_env be in
  match c with
  | CmdList => Ended (cli_list e) [] (Ok tt)
  | CmdTokenize t =>
    match read_args filters t with
    | None => Usage
    | Some args =>
      match cli_run e args (match ty_input_file t with Some path => e_read e path | None => Some stdin end) with
      | Some (out, r) => Ended out [] r
      | None => Endless
      end
    end
  | CmdBuild user dic_type src dest =>
    match kind_from_str dic_type with
    | Ok k =>
      match cli_build be user k src dest with
      | Ok files => Ended [] files (Ok tt)
      | Err er => Ended [] [] (Err er)
      | Panic => Ended [] [] Panic
      end
    | _ => Usage
    end
  end.
