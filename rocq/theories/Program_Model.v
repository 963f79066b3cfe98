(** src/marc.cpp: the program, from its environment, its arguments and the
    characters of its input files to its map files and its exit status. *)
From Coq Require Import List ZArith Bool String.
From Verif Require Import Base Flt Num Maths_Model Extrema_Model MakeMap_Model Proj_Model Virtual_Model Params_Model Fits_Model Command_Model
  Cli_Model Input_Model View_Model Parse_Model Run_Model Expr_Model.
Import ListNotations.
Open Scope Z_scope.

(** What std::fopen finds: nothing (errno is ENOENT), something it cannot open,
    or the characters of a file. *)
Inductive opened := missing | unopenable | contents (s : text).

(** What the program meets when it is started: std::getenv, std::fopen, the
    tree that flex and bison make of the characters of a file (none for a
    syntax error), errno after a configuration file that could be opened but
    not be parsed, the status CFITSIO returns for its n-th call and what it
    leaves then, and whether unlink() removes the file of a name. *)
Record host := Host {
  getenv : string -> option string;
  fopen : string -> opened;
  tree : text -> option input_text;
  enoent_left : bool;
  cfitsio : nat -> Z;
  leaves : nat -> disk datum;
  removes : string -> bool }.

(** [get_config_filename], src/marc.cpp:150-186; the warning about ~/.marc is
    left out, PACKAGE is "marc" (configure.ac:12-16). *)
Definition config_filename (h : host) : string :=
  match getenv h "XDG_CONFIG_HOME" with
  | Some dir => dir ++ "/marc"
  | None =>
      match getenv h "HOME" with
      | Some dir => dir ++ "/.config/marc"
      | None => EmptyString
      end
  end.

(** How [parse_file] ends: without opening the file, without parsing it, or
    with new global data of the parser. *)
Inductive parsed := not_opened (enoent : bool) | not_parsed | was_parsed (g : globals).

Section Program.
Variable X : outside.
Variable h : host.

(** The actions of the parser for one file, as in [commands_of]. *)
Definition actions (t : input_text) : act unit :=
  a_file (x_fmod X) (l_degree (x_libm X)) (x_centric X) (x_au X) (constructs X) (opens X) (refuses X) t.

(** [parse_file], src/marc.cpp:96-134.  Of a file with a syntax error no
    actions are modelled; main() ends with -1 after it anyway (or the model
    ends, see [marc]). *)
Definition parse_file (name : string) (g : globals) : outcome parsed :=
  match fopen h name with
  | missing => Ok (not_opened true)
  | unopenable => Ok (not_opened false)
  | contents s =>
      match tree h s with
      | None => Ok not_parsed
      | Some t =>
          match actions t g with
          | Ok (Some (_, g)) => Ok (was_parsed g)
          | Ok None => Ok not_parsed
          | Throw e => Throw e
          | UB u => UB u
          end
      end
  end.

(** The loop over the input files, src/marc.cpp:217-219: the parser's data at
    the end, unless a file fails. *)
Fixpoint parse_inputs (l : list string) (g : globals) : outcome (option globals) :=
  match l with
  | [] => Ok (Some g)
  | name :: l =>
      bind (parse_file name g) (fun r => match r with was_parsed g => parse_inputs l g | _ => Ok None end)
  end.

(** How the program ends: main() returns, the command line ends the process,
    the behaviour is undefined, or the model does not tell (a map or grid whose
    drawing throws or does not end within [fuel], see [command_of], and a
    faulty configuration file after which errno is ENOENT). *)
Inductive ending := returned (status : Z) | exited (code : Z) | undefined (u : ubkind) | untold.

(** Files by name.  Different names are different files here; of links and of
    the extended names of CFITSIO nothing is known.  Photos are read from
    [x_file X], whatever the program has written before. *)
Definition files : Type := string -> file.
Definition put (fs : files) (name : string) (f : file) : files := fun n => if String.eqb n name then f else fs n.

(** The loop over the commands, src/marc.cpp:221-231, with the handler of
    src/marc.cpp:232-243; [calls] counts the calls of CFITSIO. *)
Fixpoint make_maps (fuel : nat) (l : list map_command) (result : Z) (fs : files) (calls : nat) : ending * files :=
  match l with
  | [] => (returned result, fs)
  | m :: l =>
      match command_of X fuel m with
      | None => (untold, fs)
      | Some c =>
          let '(w, o) := execute (cfitsio h) (leaves h) (removes h (mc_file m)) c (World (fs (mc_file m)) calls) in
          let fs := put fs (mc_file m) (w_file w) in
          match o with
          | Ok r => make_maps fuel l (if r =? 0 then result else 1) fs (w_calls w)
          | Throw _ => (returned (-1), fs)
          | UB u => (undefined u, fs)
          end
      end
  end.

(** [main], src/marc.cpp:191-247, from the configuration file on. *)
Definition marc (fuel : nat) (argv : list string) (fs : files) : ending * files :=
  let inputs g :=
    match cli_parse argv with
    | Ok (Exit code) => (exited code, fs)
    | Ok (Files l) =>
        match parse_inputs l g with
        | Ok (Some g) => make_maps fuel (g_commands g) 0 fs 0
        | Ok None => (returned (-1), fs)
        | Throw _ => (returned (-1), fs)
        | UB u => (undefined u, fs)
        end
    | Throw _ => (returned (-1), fs)
    | UB u => (undefined u, fs)
    end in
  match parse_file (config_filename h) globals_new with
  | Ok (was_parsed g) => inputs g
  | Ok (not_opened true) => inputs globals_new
  | Ok (not_opened false) => (returned (-1), fs)
  | Ok not_parsed => if enoent_left h then (untold, fs) else (returned (-1), fs)
  | Throw _ => (returned (-1), fs)
  | UB u => (undefined u, fs)
  end.
End Program.
