(** Specification of the command line. *)
From Coq Require Import List ZArith String.
From Verif Require Import Base Cli_Model.
Import ListNotations.
Open Scope string_scope.

(** An argument that looks like an option: it starts with a dash. *)
Definition dashed (s : string) : Prop := exists r, s = "-" ++ r.

(** The options that print something and end the program successfully. *)
Definition informative : list string := ["--usage"; "--help"; "-?"; "--version"; "-V"].

(** [pre] are plain arguments, none of them dashed. *)
Definition plain (pre : list string) : Prop := Forall (fun s => ~ dashed s) pre.

(** What an argument list stands for. *)
Inductive meaning : list string -> cli -> Prop :=
| all_plain files : plain files -> files <> [] -> meaning files (Files files)
| with_separator pre post :
    plain pre -> (pre ++ post)%list <> [] -> meaning (pre ++ "--" :: post) (Files (pre ++ post))
| nothing : meaning [] (Exit 64)
| only_separator : meaning ["--"] (Exit 64)
| known_option pre o post : plain pre -> In o informative -> meaning (pre ++ o :: post) (Exit 0)
| unknown_option pre o post :
    plain pre -> dashed o -> o <> "--" -> ~ In o informative -> meaning (pre ++ o :: post) (Exit 64).
