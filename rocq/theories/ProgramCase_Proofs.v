(** A run of the whole program, for C112. *)
From Coq Require Import List ZArith Reals Bool String Ascii.
From Flocq Require Import Core BinarySingleNaN.
From Verif Require Import Base Flt Num Maths_Model Extrema_Model Extrema_Spec MakeMap_Model Proj_Model Virtual_Model
  Params_Model Fits_Model Command_Model Expr_Model Text_Model TextGrammar_Proofs TextCases_Proofs
  Cli_Model Cli_Spec Input_Model Entry_Model View_Model Parse_Model Parse_Spec Run_Model Run_Spec RunCase_Proofs Program_Model Program_Spec.
Import ListNotations.
Open Scope Z_scope.

(** Numbers of digits only. *)
Definition digits_value (s : text) : option double :=
  Some (double_of_Z (fold_left (fun v c => 10 * v + (Z.of_nat (nat_of_ascii c) - 48)) s 0)).
Definition read_tree (s : text) : option input_text := TextGrammar_Proofs.parse_file digits_value (fun _ x => x) (fun x _ => x) (file_tokens s).

Definition entry_text (plane : string) : text := chars ("MAP: map.fits
BODY: Earth
EQ_RAD: 6378
POL_RAD: 6357
ROTATION: PROGRADE
DATA_TYPE: SHORT
TYPE: SIMPLE_C
SAMPLES: 4
LINES: 2
PLANE:
" ++ plane)%string.
Definition the_host (config : opened) : host :=
  Host (fun v => if String.eqb v "HOME" then Some "/home/me"%string else None)
    (fun name => if String.eqb name "a.inp" then contents (entry_text "LATITUDE:")
                 else if String.eqb name "b.inp" then contents (entry_text "LONGITUDE")
                 else if String.eqb name "c.inp" then contents (chars "MAP:")
                 else if String.eqb name "/home/me/.config/marc" then config
                 else missing)
    read_tree false (fun _ => 0) (fun _ _ => None) (fun _ => true).
Lemma host_parses config : parses digits_value (fun _ x => x) (fun x _ => x) (the_host config).
Proof. intros s t. symmetry. apply TextGrammar_Proofs.parse_file_iff. Qed.

Definition old_files : files := fun _ => old_file.
(** The ending of a run, and what some elements of map.fits are. *)
Definition ends (config : opened) (args : list string) : ending * option (list (option Z)) :=
  let '(e, fs) := marc the_program (the_host config) 0 ("marc" :: args)%string old_files in
  (e, peek the_cells (fs "map.fits"%string)).
Lemma two_maps : ends missing ["a.inp"; "b.inp"]%string =
  (returned 0, Some [None; Some 13500; Some 4500; Some (-4500); Some (-13500); Some 13500; Some 4500; Some (-4500); Some (-13500); None]).
Proof. vm_compute. reflexivity. Qed.
Lemma two_maps_reversed : ends (contents plain_layout) ["b.inp"; "--"; "a.inp"]%string =
  (returned 0, Some [None; Some (-4500); Some (-4500); Some (-4500); Some (-4500); Some 4500; Some 4500; Some 4500; Some 4500; None]).
Proof. vm_compute. reflexivity. Qed.
Lemma faulty_file : ends missing ["a.inp"; "c.inp"]%string = (returned (-1), None).
Proof. vm_compute. reflexivity. Qed.
Lemma version_wanted : ends missing ["a.inp"; "-V"]%string = (exited 0, None).
Proof. vm_compute. reflexivity. Qed.

Definition with_xdg (dir : string) : host :=
  Host (fun v => if String.eqb v "HOME" then Some "/home/me"%string else if String.eqb v "XDG_CONFIG_HOME" then Some dir else None)
    (fun _ => missing) read_tree false (fun _ => 0) (fun _ _ => None) (fun _ => true).
Lemma xdg_ignored :
  (exists h, config_home (getenv h) "/home/me/.config" /\ getenv h "XDG_CONFIG_HOME" = Some EmptyString /\ config_filename h = "/marc"%string) /\
  (exists h, config_home (getenv h) "/home/me/.config" /\ getenv h "XDG_CONFIG_HOME" = Some "cfg"%string /\ config_filename h = "cfg/marc"%string).
Proof.
  split; [exists (with_xdg "")|exists (with_xdg "cfg")]; (split; [|split; reflexivity]);
    (apply home with (dir := "/home/me"%string); [|reflexivity]); intros d [E [r A]]; cbn in E; injection E as <-; discriminate A.
Qed.
