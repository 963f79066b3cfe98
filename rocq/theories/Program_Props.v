(** C112 and C113: the whole program. *)
From Coq Require Import List ZArith Reals Bool String.
From Flocq Require Import Core BinarySingleNaN.
From Verif Require Import Base Flt Num Maths_Model Extrema_Model Extrema_Spec MakeMap_Model MakeMap_Spec Proj_Model Virtual_Model Virtual_Spec
  Params_Model Fits_Model Command_Model Expr_Model Text_Model TextCases_Proofs
  Cli_Model Cli_Spec Input_Model Entry_Model View_Model Parse_Model Parse_Spec Run_Model Run_Spec RunCase_Proofs
  Program_Model Program_Spec Program_Proofs ProgramCase_Proofs.
Import ListNotations.
Open Scope Z_scope.
Open Scope list_scope.

(** C112, success: main() returns 0 only if every input file named on the command
    line was read as the grammar says, after the configuration file, and every map
    they define was made.  The file of the last map of a name is the one that map
    made; files that no map names are as before. *)
Theorem C112_success : forall strtod call pow X h fuel prog args fs fs', parses strtod call pow h ->
  marc X h fuel (prog :: args) fs = (returned 0, fs') ->
  exists files config ts cmds, meaning args (Files files) /\ configured strtod call pow h config /\
    Forall2 (file_reads strtod call pow h) files ts /\ commands_of X (config ++ ts) = Ok (Some cmds) /\
    (forall n m, nth_error cmds n = Some m -> exists c w w', command_of X fuel m = Some c /\
       execute (cfitsio h) (leaves h) (removes h (mc_file m)) c w = (w', Ok 0) /\
       (last_named mc_file cmds n -> fs' (mc_file m) = w_file w')) /\
    (forall name, (forall m, In m cmds -> mc_file m <> name) -> fs' name = fs name).
Proof. intros strtod call pow X h fuel prog args fs fs' P. exact (run_success strtod call pow X h P fuel prog args fs fs'). Qed.
Print Assumptions C112_success.

(** C112, order: the maps are made one after the other, each from the files and
    the number of calls of CFITSIO that the ones before it left, even if some of
    them report a problem; the status is 0 if none does and else 1. *)
Theorem C112_order : forall strtod call pow X h fuel prog args fs fs' z, parses strtod call pow h ->
  marc X h fuel (prog :: args) fs = (returned z, fs') -> z <> -1 ->
  exists files config ts cmds (at_ : nat -> Program_Model.files * nat) (code : nat -> Z),
    meaning args (Files files) /\ configured strtod call pow h config /\ Forall2 (file_reads strtod call pow h) files ts /\
    commands_of X (config ++ ts) = Ok (Some cmds) /\ at_ O = (fs, O) /\ fs' = fst (at_ (List.length cmds)) /\
    (forall n m, nth_error cmds n = Some m -> one_map X h fuel m (at_ n) (at_ (S n)) (code n)) /\
    (z = 0 \/ z = 1) /\ (z = 0 <-> forall n, (n < List.length cmds)%nat -> code n = 0).
Proof. intros strtod call pow X h fuel prog args fs fs' z P. exact (run_in_turn strtod call pow X h P fuel prog args fs fs' z). Qed.
Print Assumptions C112_order.

(** C112, entries: the same for the MAP entries of the input files. *)
Theorem C112_entries : forall strtod call pow X h fuel prog args fs fs' files u ts, parses strtod call pow h ->
  marc X h fuel (prog :: args) fs = (returned 0, fs') ->
  meaning args (Files files) -> configured strtod call pow h (match u with Some u => [user_text u] | None => [] end) ->
  Forall2 (file_reads strtod call pow h) files (texts_of ts) -> unmixed ts ->
  exists cmds, commands_of X (texts u ts) = Ok (Some cmds) /\
  (forall n e, nth_error (maps_of ts) n = Some e -> last_named me_file (maps_of ts) n ->
   exists m c w w', nth_error cmds n = Some m /\ mc_file m = me_file e /\ command_of X fuel m = Some c /\
     execute (cfitsio h) (leaves h) (removes h (me_file e)) c w = (w', Ok 0) /\ fs' (me_file e) = w_file w') /\
  (forall name, (forall e, In e (maps_of ts) -> me_file e <> name) -> fs' name = fs name).
Proof.
  intros strtod call pow X h fuel prog args fs fs' files u ts P.
  exact (run_entries strtod call pow X h P fuel prog args fs fs' files u ts).
Qed.
Print Assumptions C112_entries.

(** C112, from characters to elements: what the file of a simple cylindrical map
    of the whole body holds after a successful run. *)
Theorem C112_simple_cylindrical : forall strtod call pow X h fuel prog args fs fs' files ts n e samples lines,
  (parses strtod call pow h -> ieee X -> accurate (x_scale X) -> (forall n, cfitsio h n = 0%Z) ->
  marc X h fuel (prog :: args) fs = (returned 0, fs') ->
  meaning args (Files files) -> fopen h (config_filename h) = missing ->
  Forall2 (file_reads strtod call pow h) files (texts_of ts) -> unmixed ts ->
  nth_error (maps_of ts) n = Some e -> last_named me_file (maps_of ts) n -> me_projection e = T_simple_c None ->
  size_written (me_samples e) samples -> size_written (me_lines e) lines ->
  let planes := Z.of_nat (S (List.length (me_more_planes e))) in
  (2 <= samples * lines)%Z -> (samples * lines * planes < 2 ^ 63 - 1)%Z -> (lines < 2 ^ 37)%Z -> (samples < 2 ^ 52)%Z ->
  forall j p, nth_error (me_plane e :: me_more_planes e) j = Some p -> pe_range p = no_range ->
  (pe_type p = T_latitude None \/ pe_type p = T_latitude (Some Centric) ->
   exists t axes cards d rest, fs' (me_file e) = new_file (Hdu t axes cards d :: rest) /\
   forall k i, (0 <= k < lines)%Z -> (0 <= i < samples)%Z ->
   exists v y, d (1 + Z.of_nat j * (samples * lines) + k * samples + i)%Z = Some (existT _ t v) /\
     stands_for t cards planes (Z.of_nat j + 1) v y /\
     Rabs (y - (-90 + 180 * fraction k lines)) <= tolerance t latitude_plane + 1e-12) /\
  (pe_type p = T_longitude ->
   exists t axes cards d rest, fs' (me_file e) = new_file (Hdu t axes cards d :: rest) /\
   forall k i, (0 <= k < lines)%Z -> (0 <= i < samples)%Z ->
   exists v y z, d (1 + Z.of_nat j * (samples * lines) + k * samples + i)%Z = Some (existT _ t v) /\
     stands_for t cards planes (Z.of_nat j + 1) v y /\
     Rabs (y - ((if me_prograde e then 360 - 360 * fraction i samples else 360 * fraction i samples) + 360 * IZR z))
       <= tolerance t longitude_plane + 1e-11))%R.
Proof. exact run_default_map. Qed.
Print Assumptions C112_simple_cylindrical.

(** C112, failures: the status is 0, 1 or -1; it is 1 only if a map command
    reported a problem. *)
Theorem C112_problem : forall strtod call pow X h fuel prog args fs fs' z, parses strtod call pow h ->
  marc X h fuel (prog :: args) fs = (returned z, fs') -> z <> 0 -> z <> -1 ->
  z = 1 /\ exists files config ts cmds n m c w w' r, meaning args (Files files) /\ configured strtod call pow h config /\
    Forall2 (file_reads strtod call pow h) files ts /\
    commands_of X (config ++ ts) = Ok (Some cmds) /\ nth_error cmds n = Some m /\ command_of X fuel m = Some c /\
    execute (cfitsio h) (leaves h) (removes h (mc_file m)) c w = (w', Ok r) /\ r <> 0.
Proof. intros strtod call pow X h fuel prog args fs fs' z P. exact (run_problem strtod call pow X h P fuel prog args fs fs' z). Qed.
Print Assumptions C112_problem.

(** No map is made if any of the input files cannot be opened or read, not even
    those of the files before it. *)
Theorem C112_faulty : forall strtod call pow X h fuel prog args fs files f, parses strtod call pow h ->
  meaning args (Files files) -> In f files -> (forall t, ~ file_reads strtod call pow h f t) ->
  exists e, marc X h fuel (prog :: args) fs = (e, fs) /\ (e = returned (-1) \/ e = untold \/ exists u, e = undefined u).
Proof. intros strtod call pow X h fuel prog args fs files f P. exact (run_faulty strtod call pow X h P fuel prog args fs files f). Qed.
Print Assumptions C112_faulty.

(** Options and missing arguments end the process. *)
Theorem C112_options : forall X h fuel prog args fs code,
  meaning args (Exit code) -> fopen h (config_filename h) = missing -> marc X h fuel (prog :: args) fs = (exited code, fs).
Proof. exact run_options. Qed.
Print Assumptions C112_options.

(** Two files with a map of the same name, latitudes and longitudes: the later
    wins; and a third that ends after "MAP:". *)
Example C112_case : (forall config, parses digits_value (fun _ x => x) (fun x _ => x) (the_host config)) /\
  ends missing ["a.inp"; "b.inp"]%string =
    (returned 0, Some [None; Some 13500; Some 4500; Some (-4500); Some (-13500); Some 13500; Some 4500; Some (-4500); Some (-13500); None]) /\
  ends (contents plain_layout) ["b.inp"; "--"; "a.inp"]%string =
    (returned 0, Some [None; Some (-4500); Some (-4500); Some (-4500); Some (-4500); Some 4500; Some 4500; Some 4500; Some 4500; None]) /\
  ends missing ["a.inp"; "c.inp"]%string = (returned (-1), None) /\
  ends missing ["a.inp"; "-V"]%string = (exited 0, None).
Proof. split; [exact host_parses|]. split; [exact two_maps|]. split; [exact two_maps_reversed|]. split; [exact faulty_file|exact version_wanted]. Qed.

(** C113: the configuration file is that of the XDG specification, if
    XDG_CONFIG_HOME is not set or an absolute path. *)
Theorem C113_partial : forall h dir,
  (getenv h "XDG_CONFIG_HOME" = None \/ exists d, usable (getenv h "XDG_CONFIG_HOME") d) ->
  config_home (getenv h) dir -> config_filename h = (dir ++ "/marc")%string.
Proof. exact config_file. Qed.
Print Assumptions C113_partial.

(** C113 is false: with an empty XDG_CONFIG_HOME the file /marc is read, with a
    relative one a file of the working directory. *)
Theorem C113_refuted :
  (exists h, config_home (getenv h) "/home/me/.config" /\ getenv h "XDG_CONFIG_HOME" = Some EmptyString /\ config_filename h = "/marc") /\
  (exists h, config_home (getenv h) "/home/me/.config" /\ getenv h "XDG_CONFIG_HOME" = Some "cfg" /\ config_filename h = "cfg/marc").
Proof. exact xdg_ignored. Qed.
Print Assumptions C113_refuted.

Example C113_case : config_home (getenv (the_host missing)) "/home/me/.config" /\ config_filename (the_host missing) = "/home/me/.config/marc"%string.
Proof. split; [|reflexivity]. apply home with (dir := "/home/me"%string); [intros d [E _]; discriminate E|reflexivity]. Qed.
