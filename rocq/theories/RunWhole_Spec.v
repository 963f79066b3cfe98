(** Specification vocabulary for C126: successful runs of the whole program. *)
From Coq Require Import List ZArith Reals String.
From Flocq Require Import Core BinarySingleNaN.
From Verif Require Import Base Flt Num Fits_Model Expr_Model Text_Model Cli_Model Cli_Spec Input_Model Entry_Model View_Model Parse_Model Parse_Spec Run_Model Run_Spec
  Program_Model Program_Spec.
Open Scope Z_scope.

(** main() is given the names of [files], returns 0 and leaves the files [fs'].  The
    configuration file is [u], the input files hold the maps of [ts].  [e] is the last
    map of its name, of [samples] by [lines] as written. *)
Record successful (strtod : text -> option double) (call : string -> double -> double) (pow : double -> double -> double)
    (X : outside) (h : host) (fuel : nat) (args : list string) (fs fs' : Program_Model.files)
    (u : option user_entry) ts (e : map_entry) (samples lines : Z) : Prop := Successful {
  s_parses : parses strtod call pow h;
  s_returns : exists prog, marc X h fuel (prog :: args) fs = (returned 0, fs');
  s_reads : exists files, meaning args (Files files) /\ Forall2 (file_reads strtod call pow h) files (texts_of ts);
  s_configured : configured strtod call pow h (match u with Some u => user_text u :: nil | None => nil end);
  s_unmixed : unmixed ts;
  s_entry : exists n, nth_error (maps_of ts) n = Some e /\ last_named me_file (maps_of ts) n;
  s_samples : size_written (me_samples e) samples;
  s_lines : size_written (me_lines e) lines;
  s_fits : 2 <= samples * lines /\ samples * lines * Z.of_nat (List.length (me_plane e :: me_more_planes e)) < 2 ^ 63 - 1 }.

(** Where the element of plane [j] at [line], [sample] is. *)
Definition position (samples lines j line sample : Z) : Z := 1 + j * (samples * lines) + line * samples + sample.
