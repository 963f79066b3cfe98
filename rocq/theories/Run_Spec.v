(** Specification vocabulary for C100 to C104: what the elements of a map file
    are. *)
From Coq Require Import List ZArith Reals Bool String.
From Flocq Require Import Core BinarySingleNaN.
From Verif Require Import Base Flt Num Maths_Model Extrema_Model Extrema_Spec MakeMap_Model MakeMap_Spec Proj_Model Virtual_Model Virtual_Spec Command_Model Parse_Model Parse_Spec
  Run_Model.
Import ListNotations.
Open Scope R_scope.
Open Scope list_scope.

(** C::_2pi, lib/marc/Constants.h:129. *)
Definition d_2pi : double := dlit 7074237752028440 (-50).

(** The constants of the program as IEEE doubles, and an exact std::fmod. *)
Record ieee (X : outside) : Prop := Ieee {
  i_degree : l_degree (x_libm X) = d_degree;
  i_pi2 : l_pi2 (x_libm X) = d_pi2;
  i_2pi : l_2pi (x_libm X) = d_2pi;
  i_eps : l_eps (x_libm X) = eps_double;
  i_tiny : l_tiny (x_libm X) = tiny_double;
  i_circle : x_circle X = d_circle;
  i_fmod : fmod_spec (x_fmod X) }.

(** The ends, in degrees, of the longitudes of a simple cylindrical map whose
    user gave [lo] and [hi]. *)
Definition longitude_ends (lo hi : R) : R * R :=
  match Rcompare hi lo with
  | Lt => (lo - 360, hi)
  | Eq => (lo, hi + 360)
  | Gt => (lo, hi)
  end.

(** Where the middle of cell [i] of [n] lies between 0 and 1. *)
Definition fraction (i n : Z) : R := (IZR i + / 2) / IZR n.
Definition middle_latitude (lo hi : R) (k lines : Z) : R := lo + fraction k lines * (hi - lo).
Definition middle_longitude (prograde : bool) (lo hi : R) (i samples : Z) : R :=
  let '(west, east) := longitude_ends lo hi in
  if prograde then east - fraction i samples * (east - west) else west + fraction i samples * (east - west).

(** What cell [c] of a plane made from an image shows: the datum read at the
    point plotted there, converted to the type of the map, if there is one and
    it is within the limits; the blank value otherwise. *)
Definition shows (t : mapty) (read : reader) (lo hi : R) (blank : ct t) (calls : list (point * Z)) (c : Z) (v : ct t) : Prop :=
  (exists q x, In (q, c) calls /\ read q zero_datum = Ok (true, x) /\ within lo hi x /\ holds t v x) \/
  (v = blank /\ forall q, In (q, c) calls -> exists ok x, read q zero_datum = Ok (ok, x) /\ (ok = false \/ ~ within lo hi x)).

(** Every photo has what the parser gives it: parameters and a viewing geometry. *)
Definition ready_photo (p : photo_factory) : Prop := Parse_Model.ph_config p <> None /\ Parse_Model.ph_geometry p <> None.
Definition ready_image (f : image_factory) : Prop :=
  match if_source f with F_photo p => ready_photo p | F_mosaic l _ => Forall ready_photo l | _ => True end.
Definition ready_command (m : map_command) : Prop := Forall ready_image (mc_images m).

(** The size of a map is within what a FITS file can hold. *)
Definition fits_size (m : map_command) : Prop :=
  (0 < mc_samples m /\ 0 < mc_lines m /\ 2 <= mc_samples m * mc_lines m /\
   mc_samples m * mc_lines m * Z.of_nat (List.length (mc_images m)) < 2 ^ 63 - 1)%Z.

(** Number, in the array, of the element of plane [j], line [k], sample [i], all
    counted from 0; CFITSIO counts from 1. *)
Definition element (m : map_command) (j k i : Z) : Z := (1 + j * (mc_samples m * mc_lines m) + k * mc_samples m + i)%Z.

(** ** Computed planes *)
(** Steps of an integer map type per unit of a computed plane. *)
Definition steps (t : mapty) (p : plane) : Z :=
  let digits := match t with U8 => 2 | I16 => 4 | I32 => 9 | I64 => 18 | F32 | F64 => 0 end%Z in
  (10 ^ match p with latitude_plane | longitude_plane => digits - 2 | _ => digits end)%Z.
(** Greatest magnitude of the values of a plane. *)
Definition greatest_value (p : plane) : R :=
  match p with latitude_plane => 90 | longitude_plane => 360 | _ => 1 end.
(** How far a stored value may be off: a step of the type, and for [double]
    rounding only. *)
Definition tolerance (t : mapty) (p : plane) : R :=
  match t with F64 => 0 | F32 => greatest_value p / IZR (2 ^ 24) | _ => / IZR (steps t p) end + greatest_value p * 1e-14.

(** The header gives scale and zero of plane [n] of [num]: as the cards BSCALE
    and BZERO if it is the only one, as history otherwise. *)
Definition scaled_by (cards : list card) (num n : Z) (scale zero : double) : Prop :=
  exists before after, cards = before ++
    (if (num =? 1)%Z then [key_double "BSCALE" scale; key_double "BZERO" zero] else [card_plane n; card_bscale scale; card_bzero zero])
    ++ after.
(** The number that element [v] of plane [n] stands for. *)
Definition stands_for (t : mapty) (cards : list card) (num n : Z) (v : ct t) (r : R) : Prop :=
  exists y, tval t v = Some y /\
  match t with
  | F32 | F64 => r = y
  | _ => exists scale zero, scaled_by cards num n scale zero /\ is_finite scale = true /\ is_finite zero = true /\
           r = B2R scale * y + B2R zero
  end.

(** The kind of a computed plane, and what it computes (in doubles) at a latitude
    and longitude in radians. *)
Inductive computes (X : outside) : source_factory -> plane -> (double -> double -> outcome (option double)) -> Prop :=
| computes_mu b lat lon range :
    computes X (F_mu b lat lon range) mu_plane (mu_data (A := ar_double) (x_libm X) (x_mu X b) lat lon range)
| computes_mu0 b lat lon :
    computes X (F_mu0 b lat lon) mu0_plane (mu0_data (A := ar_double) (x_libm X) (x_mu0 X b) lat lon)
| computes_phase b lat lon slat slon range :
    computes X (F_phase b lat lon slat slon range) cos_phase_plane
      (cos_phase_data (A := ar_double) (x_libm X) (x_cos_phase X b) lat lon slat slon range)
| computes_latitude b graphic :
    computes X (F_latitude b graphic) latitude_plane (latitude_data (A := ar_double) (x_libm X) (x_graphic X b) graphic)
| computes_longitude :
    computes X F_longitude longitude_plane (longitude_data (A := ar_double) (x_circle X) (l_degree (x_libm X)) (x_fmod X)).

(** The command of a map in input files, read after a user file or without one. *)
Definition from_input (X : outside) (m : map_command) : Prop :=
  exists u ts cmds, commands_of X (texts u ts) = Ok (Some cmds) /\ In m cmds.
