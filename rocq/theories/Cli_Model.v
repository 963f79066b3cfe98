(** The command line, [MaRC::command_line::parse] (src/command_line.cpp), as
    compiled without Argp (lines 114-198).  With Argp the arguments are
    handled by the C library and are not modelled. *)
From Coq Require Import List ZArith Bool String Ascii.
From Verif Require Import Base.
Import ListNotations.
Open Scope string_scope.

(** What parse() leads to: process exit with a code, or the list of files that
    files_.args() receives (src/command_line.cpp:196). *)
Inductive cli := Exit (code : Z) | Files (l : list string).

(** EXIT_SUCCESS and EX_USAGE (sysexits.h). *)
Definition exit_success : Z := 0.
Definition ex_usage : Z := 64.

(** The argument starts with a dash, src/command_line.cpp:126. *)
Definition dash (s : string) : bool :=
  match s with String c _ => Ascii.eqb c "-"%char | EmptyString => false end.

(** src/command_line.cpp:135-181: the code to exit with, if any; "--" goes on. *)
Definition option_exit (s : string) : option Z :=
  if s =? "--" then None
  else if s =? "--usage" then Some exit_success
  else if (s =? "--help") || (s =? "-?") then Some exit_success
  else if (s =? "--version") || (s =? "-V") then Some exit_success
  else Some ex_usage.

(** [std::rotate(arg, arg + 1, end)]: the element at [i] moves behind the others
    before [e]; the result of the call is the position [e - 1]. *)
Definition rotate1 {A} (l : list A) (i e : nat) : list A :=
  firstn i l ++ firstn (e - S i) (skipn (S i) l) ++ firstn 1 (skipn i l) ++ skipn e l.

(** The loop of src/command_line.cpp:125-185.  [args] are the arguments after
    the program name, followed by a null pointer (argv[argc]); [arg] and [end_]
    are positions in it.  [fuel] bounds the turns; the caller gives more than
    there are positions. *)
Fixpoint cli_loop (fuel : nat) (args : list string) (arg end_ : nat) (nropts : bool)
  : outcome (Z + list string * nat) :=
  match fuel with
  | O => UB ub_access
  | S k =>
      if Nat.eqb arg end_ then Ok (inr (args, end_))
      else match nth_error args arg with
      | None => if Nat.eqb arg (List.length args) then Ok (inr (args, end_)) else UB ub_access
      | Some s =>
          if dash s && negb nropts then
            match option_exit s with
            | Some code => Ok (inl code)
            | None => cli_loop k (rotate1 args arg end_) (S arg) (end_ - 1) true
            end
          else cli_loop k args (S arg) end_ nropts
      end
  end.

(** [command_line::parse], src/command_line.cpp:100-200.  [argv] holds the argc
    strings of the command line, program name first.  For argc = 0 the loop
    starts beyond the terminating null pointer. *)
Definition cli_parse (argv : list string) : outcome cli :=
  match argv with
  | [] => UB ub_access
  | _ :: args =>
      bind (cli_loop (S (S (List.length args))) args 0 (List.length args) false) (fun r =>
      match r with
      | inl code => Ok (Exit code)
      | inr (args', end_) =>
          if Nat.eqb 0 end_ then Ok (Exit ex_usage)
          else Ok (Files (firstn end_ args'))
      end)
  end.
