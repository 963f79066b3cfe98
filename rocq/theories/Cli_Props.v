(** The command line: C73. *)
From Coq Require Import List ZArith String.
From Verif Require Import Base Cli_Model Cli_Spec Cli_Proofs.
Import ListNotations.
Open Scope string_scope.

(** C73: every argument list has a meaning and it is what parse() does. *)
Theorem C73_total : forall prog args,
  exists r, cli_parse (prog :: args) = Ok r /\ meaning args r.
Proof. exact cli_total. Qed.
Print Assumptions C73_total.

Theorem C73_meaning : forall prog args r,
  meaning args r -> cli_parse (prog :: args) = Ok r.
Proof. exact cli_meaning. Qed.
Print Assumptions C73_meaning.

(** The files are all the arguments, in order, except one separator. *)
Theorem C73_files : forall prog args files,
  cli_parse (prog :: args) = Ok (Files files) ->
  files <> [] /\
  ((plain args /\ files = args) \/
   exists pre post, args = (pre ++ "--" :: post)%list /\ plain pre /\ files = (pre ++ post)%list).
Proof. exact cli_files. Qed.
Print Assumptions C73_files.

Example C73_case :
  cli_parse ["marc"; "a.inp"; "--"; "-b.inp"; "--"; "c"] = Ok (Files ["a.inp"; "-b.inp"; "--"; "c"]) /\
  cli_parse ["marc"; "a.inp"; "--"] = Ok (Files ["a.inp"]) /\
  cli_parse ["marc"; "a.inp"; "-V"; "-x"] = Ok (Exit 0) /\
  cli_parse ["marc"; "-"] = Ok (Exit 64) /\
  cli_parse ["marc"; "--"] = Ok (Exit 64).
Proof. repeat split; reflexivity. Qed.

(** Without a program name (argc = 0) the arguments are read beyond their end. *)
Example C73_no_program_name : cli_parse [] = UB ub_access.
Proof. reflexivity. Qed.
