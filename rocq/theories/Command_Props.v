(** C61, C62, C72 and C89. *)
From Coq Require Import List ZArith Bool String.
From Flocq Require Import BinarySingleNaN.
From Verif Require Import Base Flt Num Maths_Model Extrema_Model MakeMap_Model Virtual_Model Params_Model Fits_Model
  Fits_Spec Command_Model Command_Spec Command_Proofs.
Import ListNotations.
Open Scope Z_scope.

(** ** C61: limits of a mosaic *)

(** C61 is false: whenever every photo of a mosaic has a minimum, an empty
    optional is dereferenced. *)
Theorem C61_refuted : forall l own,
  Forall (fun f => exists e, photo_make f = Ok e) l -> Forall (fun f => e_min (pl_ex f) <> None) l ->
  mosaic_make l own = UB ub_optional.
Proof. exact mosaic_minimum_undefined. Qed.
Print Assumptions C61_refuted.
Example C61_refuted_case :
  mosaic_make (repeat (PhotoLimits (Extrema (Some (double_of_Z 1 : ct F64)) None) None None) 2) ex_empty = UB ub_optional.
Proof. reflexivity. Qed.

(** C61 for the maximum, provided some photo has no minimum: with no maximum of
    its own the mosaic gets the greatest one. *)
Theorem C61_maximum_partial : forall l (ms : list double) (own : extrema (ct F64)),
  l <> [] -> Forall (fun f => exists e, photo_make f = Ok e) l -> Exists (fun f => e_min (pl_ex f) = None) l ->
  Forall2 (fun f m => e_max (pl_ex f) = Some m) l ms -> Forall (fun m => is_nan m = false) ms -> e_max own = None ->
  exists m : double, mosaic_make l own = Ok (Extrema (e_min own) (Some m)) /\ greatest ms m.
Proof. exact mosaic_maximum. Qed.
Print Assumptions C61_maximum_partial.
Example C61_maximum_case :
  let f z := PhotoLimits (Extrema None (Some (double_of_Z z : ct F64))) (Some (double_of_Z 0)) None in
  mosaic_make [f 3; f 8; f 5] ex_empty = Ok (Extrema None (Some (double_of_Z 8 : ct F64))).
Proof. reflexivity. Qed.

(** If some photo lacks a minimum and some photo a maximum, the mosaic keeps the
    limits it has. *)
Theorem C61_unlimited : forall l own,
  Forall (fun f => exists e, photo_make f = Ok e) l ->
  Exists (fun f => e_min (pl_ex f) = None) l -> Exists (fun f => e_max (pl_ex f) = None) l -> mosaic_make l own = Ok own.
Proof. exact mosaic_neither. Qed.
Print Assumptions C61_unlimited.
Example C61_unlimited_case :
  let f := PhotoLimits ex_empty (Some (double_of_Z 1)) (Some (double_of_Z 2)) in
  mosaic_make [f; f] ex_empty = Ok ex_empty.
Proof. reflexivity. Qed.

(** ** C62: an existing map file *)

(** C62, as far as it holds: a command whose parameters cannot be populated
    leaves everything as it is and does not report success. *)
Theorem C62_partial : forall status left_over removable c w,
  (forall p, populate_map_parameters (map f_source (c_factories c)) (c_params c) <> Ok p) ->
  exists o, execute status left_over removable c w = (w, o) /\ forall r, o <> Ok r.
Proof. exact unpopulated. Qed.
Print Assumptions C62_partial.
Example C62_case :
  let bad := Factory (photo (Header (fun _ => EmptyString) 7 None None)) (fun _ => Ok (None, ex_empty)) in
  execute (fun _ => 0) (fun _ _ => None) true (small_map [bad]) (World old_file 0)
  = (World old_file 0, Throw invalid_argument).
Proof. vm_compute. reflexivity. Qed.

(** C62 is false: if the data type of the map cannot be determined, which is
    noticed only later, an existing file is gone. *)
Theorem C62_refuted : forall status left_over removable c p w,
  populate_map_parameters (map f_source (c_factories c)) (c_params c) = Ok p -> get_bitpix p = Throw runtime_error ->
  exists w', execute status left_over removable c w = (w', Throw runtime_error) /\
    w_file w' = (if status (w_calls w) =? 0 then new_file [] else if removable then no_file else w_file w).
Proof. exact no_bitpix. Qed.
Print Assumptions C62_refuted.
Example C62_refuted_case :
  let untyped := Params 0 0 (fun _ => EmptyString) (fun _ => None) None [] [] [] (fun _ => false) in
  let c := Command 2 1 "Test" [] None [blank_plane] untyped in
  execute (fun _ => 0) (fun _ _ => None) true c (World old_file 0) = (World (new_file []) 1, Throw runtime_error) /\
  undetermined c.
Proof.
  split; [vm_compute; reflexivity|]. intros (p & b & P & B).
  assert (E : forall q, Ok q = Ok p -> q = p) by congruence. vm_compute in P. apply E in P. subst p. discriminate.
Qed.

(** ** C72: exit status *)

(** The exit status is 0 exactly if the configuration file was parsed (or is
    missing), the command line and every input file were parsed, and every
    command returned 0; then all of them have run. *)
Theorem C72_success : forall config enoent cl parsed commands n,
  main config enoent cl parsed commands = (Ok 0, n) <->
  ready config enoent cl parsed /\ Forall (eq (Ok 0)) commands /\ n = List.length commands.
Proof. exact main_zero. Qed.
Print Assumptions C72_success.
Example C72_success_case : main (Ok (-1)) true (Ok true) [Ok 0] [Ok 0; Ok 0] = (Ok 0, 2%nat).
Proof. reflexivity. Qed.

(** A command that fails does not keep the later ones from running. *)
Theorem C72_later : forall config enoent cl parsed commands, ready config enoent cl parsed ->
  Forall (fun o => exists z : Z, o = Ok z) commands -> ~ Forall (eq (Ok 0)) commands ->
  main config enoent cl parsed commands = (Ok 1, List.length commands).
Proof. exact main_later. Qed.
Print Assumptions C72_later.
Example C72_later_case : main (Ok 0) false (Ok true) [Ok 0] [Ok (-1); Ok 0; Ok 0] = (Ok 1, 3%nat).
Proof. reflexivity. Qed.

(** An exception does, and is reported. *)
Theorem C72_exception : forall config enoent cl parsed l e l', ready config enoent cl parsed ->
  Forall (fun o => exists z : Z, o = Ok z) l ->
  main config enoent cl parsed (l ++ Throw e :: l') = (Ok (-1), S (List.length l)).
Proof. exact main_exception. Qed.
Print Assumptions C72_exception.
Example C72_exception_case :
  main (Ok 0) false (Ok true) [] [Ok 0; Throw runtime_error; Ok 0] = (Ok (-1), 2%nat).
Proof. reflexivity. Qed.

(** Failures before the commands are reported and no command runs. *)
Theorem C72_not_ready : forall config enoent cl parsed commands, ~ ready config enoent cl parsed ->
  (forall u, config <> UB u) -> (forall u, cl <> UB u) -> (forall u, ~ In (UB u) parsed) ->
  exists z, z <> 0 /\ main config enoent cl parsed commands = (Ok z, 0%nat).
Proof. exact main_not_ready. Qed.
Print Assumptions C72_not_ready.
Example C72_not_ready_case : main (Ok 0) false (Ok true) [Ok 0; Ok 1] [Ok 0] = (Ok (-1), 0%nat).
Proof. reflexivity. Qed.

(** ** C89: success means the map is there *)

(** What a command that reports success has done: every write was attempted, in
    order, on an array with the expected shape and header. *)
Theorem C89_success : forall status left_over removable c w w' r,
  execute status left_over removable c w = (w', Ok r) ->
  let num := Z.of_nat (List.length (c_factories c)) in
  r = 0 /\
  exists p b t os maps limits d,
    populate_map_parameters (map f_source (c_factories c)) (c_params c) = Ok p /\
    get_bitpix p = Ok b /\ type_of_bitpix b = Some t /\ Forall2 (makes t) (c_factories c) os /\
    make_map_planes t (c_samples c) (c_lines c) (p_blank p) (c_calls c) (map as_plane os) = Ok (maps, limits) /\
    written_by status (c_samples c) (c_lines c) num (map (fun m => stored (fst m)) maps) d /\
    let h := Hdu t (image_axes (c_samples c) (c_lines c) num) (header_cards c t p (produced (map fst os)) limits) d in
    (c_grid c = None /\ w_file w' = new_file [h] \/
     exists g dg, c_grid c = Some (Ok g) /\ written_by status (c_samples c) (c_lines c) 1 [stored (t := U8) g] dg /\
       w_file w' = new_file [h; Hdu U8 (image_axes (c_samples c) (c_lines c) 1) (grid_cards c p) dg]).
Proof. exact execute_success. Qed.
Print Assumptions C89_success.
Example C89_success_case : forall left_over,
  let r := execute (fun _ => 0) left_over true (small_map [blank_plane]) (World old_file 0) in
  let seven := Some (existT _ I16 7 : datum) in
  snd r = Ok 0 /\ exists h, w_file (fst r) = new_file [h] /\ h_axes h = [2; 1] /\
    h_cards h = [key_int "BLANK" 7; card_projection "Test"] /\ map (h_disk h) [0; 1; 2; 3] = [None; seven; seven; None].
Proof.
  split; [vm_compute; reflexivity|]. apply peek_inv.
  vm_cast_no_check (eq_refl (peek [0; 1; 2; 3] (w_file (fst (execute (fun _ => 0) left_over true (small_map [blank_plane]) (World old_file 0)))))).
Qed.

(** C89 if no CFITSIO call fails, the factories make their images and the map
    has two or more elements: every plane is in its place, and so is the grid. *)
Theorem C89_complete_partial : forall status left_over removable c p b t os maps limits size w,
  (forall n, status n = 0) ->
  populate_map_parameters (map f_source (c_factories c)) (c_params c) = Ok p ->
  get_bitpix p = Ok b -> type_of_bitpix b = Some t ->
  0 <= c_samples c -> 0 <= c_lines c -> Z.of_nat size = c_samples c * c_lines c -> (2 <= size)%nat ->
  (1 <= List.length (c_factories c))%nat ->
  Z.of_nat size * Z.of_nat (List.length (c_factories c)) < 2 ^ 63 - 1 ->
  Forall2 (makes t) (c_factories c) os -> Forall (fun o => fst o <> None) os ->
  make_map_planes t (c_samples c) (c_lines c) (p_blank p) (c_calls c) (map as_plane os) = Ok (maps, limits) ->
  (forall g, c_grid c = Some g -> exists l, g = Ok l /\ List.length l = size) ->
  exists w' d rest, execute status left_over removable c w = (w', Ok 0) /\
    w_file w' = new_file (Hdu t (image_axes (c_samples c) (c_lines c) (Z.of_nat (List.length (c_factories c))))
                            (header_cards c t p (produced (map fst os)) limits) d :: rest) /\
    List.length maps = List.length (c_factories c) /\ holds_planes size maps d /\
    match c_grid c with
    | None => rest = []
    | Some g => exists l dg, g = Ok l /\ occupies dg 0 (stored (t := U8) l) /\
        rest = [Hdu U8 (image_axes (c_samples c) (c_lines c) 1) (grid_cards c p) dg]
    end.
Proof. exact execute_complete. Qed.
Print Assumptions C89_complete_partial.
Example C89_complete_case : forall left_over,
  let r := execute (fun _ => 0) left_over true (small_map [blank_plane; blank_plane]) (World old_file 0) in
  let seven := Some (existT _ I16 7 : datum) in
  snd r = Ok 0 /\ exists h, w_file (fst r) = new_file [h] /\ h_axes h = [2; 1; 2] /\
    h_cards h = [key_int "BLANK" 7; card_projection "Test"] /\ map (h_disk h) [1; 4; 5] = [seven; seven; None].
Proof.
  split; [vm_compute; reflexivity|]. apply peek_inv.
  vm_cast_no_check (eq_refl (peek [1; 4; 5] (w_file (fst (execute (fun _ => 0) left_over true (small_map [blank_plane; blank_plane]) (World old_file 0)))))).
Qed.

(** C89 is false: CFITSIO fails to write the plane, the command still returns 0. *)
Theorem C89_refuted :
  let r := execute (fails_at 6) (fun _ _ => None) true (small_map [blank_plane]) (World old_file 0) in
  snd r = Ok 0 /\ exists h, w_file (fst r) = new_file [h] /\ h_axes h = [2; 1] /\
    h_cards h = [key_int "BLANK" 7; card_projection "Test"] /\ map (h_disk h) [1; 2] = [None; None].
Proof. exact write_failure_unreported. Qed.
Print Assumptions C89_refuted.

(** Nor is a factory that yields no image: the planes after it move up. *)
Theorem C89_null_refuted : forall left_over,
  let r := execute (fun _ => 0) left_over true (small_map [null_plane; blank_plane]) (World old_file 0) in
  let seven := Some (existT _ I16 7 : datum) in
  snd r = Ok 0 /\ exists h, w_file (fst r) = new_file [h] /\ h_axes h = [2; 1; 2] /\
    h_cards h = [key_int "BLANK" 7; card_projection "Test"] /\ map (h_disk h) [1; 2; 3; 4] = [seven; seven; None; None].
Proof. exact null_image_shifts. Qed.
Print Assumptions C89_null_refuted.
