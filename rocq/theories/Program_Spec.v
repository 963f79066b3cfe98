(** Specification vocabulary for C112 and C113: the whole program. *)
From Coq Require Import List ZArith Reals Bool String.
From Verif Require Import Base Flt Num Expr_Model Text_Model Command_Model Cli_Model Cli_Spec Entry_Model Entry_Spec Parse_Model Parse_Spec Run_Model Program_Model.
Import ListNotations.
Open Scope list_scope.

(** The parser of the program accepts what the grammar derives (C96 to C99). *)
Definition parses (strtod : text -> option double) (call : string -> double -> double) (pow : double -> double -> double) (h : host) : Prop :=
  forall s t, tree h s = Some t <-> reads_as strtod call pow s t.

(** The file [name] can be opened and is read as [t]. *)
Definition file_reads strtod call pow (h : host) (name : string) (t : input_text) : Prop :=
  exists s, fopen h name = contents s /\ reads_as strtod call pow s t.

(** The user's configuration: none if there is no such file. *)
Definition configured strtod call pow (h : host) (c : list input_text) : Prop :=
  fopen h (config_filename h) = missing /\ c = [] \/
  exists t, file_reads strtod call pow h (config_filename h) t /\ c = [t].

(** The [n]-th of some things with names is the last of its name. *)
Definition last_named {A} (name : A -> string) (l : list A) (n : nat) : Prop :=
  forall i x y, (n < i)%nat -> nth_error l n = Some x -> nth_error l i = Some y -> name y <> name x.

(** Making the map of [m] when the files are [fst before], after [snd before] calls
    of CFITSIO: the files and the number of calls afterwards, and the status. *)
Definition one_map (X : outside) (h : host) (fuel : nat) (m : map_command) (before after : files * nat) (code : Z) : Prop :=
  exists c w, command_of X fuel m = Some c /\
    execute (cfitsio h) (leaves h) (removes h (mc_file m)) c (World (fst before (mc_file m)) (snd before)) = (w, Ok code) /\
    snd after = w_calls w /\ fst after (mc_file m) = w_file w /\
    forall name, name <> mc_file m -> fst after name = fst before name.

(** A whole number as it is usually written, with digits only (see C91). *)
Definition size_written (n : number) (v : Z) : Prop :=
  digits (n_digits n) /\ n_fraction n = None /\ n_exponent n = None /\ IZR v = denoted n.

(** The directory of configuration files, XDG Base Directory Specification:
    $XDG_CONFIG_HOME, if it is set, not empty and an absolute path, else
    $HOME/.config. *)
Definition absolute (dir : string) : Prop := exists rest, dir = ("/" ++ rest)%string.
Definition usable (v : option string) (dir : string) : Prop := v = Some dir /\ absolute dir.
Inductive config_home (env : string -> option string) : string -> Prop :=
| xdg dir : usable (env "XDG_CONFIG_HOME") dir -> config_home env dir
| home dir : (forall d, ~ usable (env "XDG_CONFIG_HOME") d) -> env "HOME" = Some dir -> config_home env (dir ++ "/.config")%string.
