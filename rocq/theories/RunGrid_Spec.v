(** Specification vocabulary for C111: the grids of cylindrical maps in files. *)
From Coq Require Import List ZArith Reals Bool.
From Flocq Require Import Core BinarySingleNaN.
From Verif Require Import Base Flt Num Extrema_Model MakeMap_Model Virtual_Model Command_Model Parse_Model Parse_Spec Run_Model Run_Spec.
Open Scope R_scope.

(** A grid interval that doubles add up exactly: a multiple of 1/1024 degree. *)
Definition grid_step (x : double) : Prop := is_finite x = true /\ exists a, (0 < a < 2 ^ 40)%Z /\ B2R x = IZR a / 1024.

(** The array [d] is black but for the rows [row j] of the latitudes
    -90 + j * [lat] and the columns [col j] of the longitudes 360 - j * [lon]. *)
Definition lined (samples lines : Z) (lat lon : R) (row col : Z -> Z) (d : Z -> option (sigT (fun t : mapty => ct t))) : Prop :=
  let on_row k := exists j, (1 <= j)%Z /\ -90 + IZR j * lat < 90 /\ row j = k in
  let on_column i := exists j, (0 <= j)%Z /\ 0 < 360 - IZR j * lon /\ col j = i in
  forall k i, (0 <= k < lines)%Z -> (0 <= i < samples)%Z ->
    (on_row k \/ on_column i) /\ d (1 + k * samples + i)%Z = Some (existT _ U8 255%Z) \/
    ~ (on_row k \/ on_column i) /\ d (1 + k * samples + i)%Z = Some (existT _ U8 0%Z).

(** [k] is the whole number nearest to [x], or one beside it where [x] is within
    [e] of the middle. *)
Definition about (x e : R) (k : Z) : Prop := Rabs (IZR k - x) <= / 2 + e.

(** Columns counted from the west or, on a prograde body, from the east. *)
Definition columns_follow (prograde : bool) (samples : Z) (lon : R) (col : Z -> Z) : Prop :=
  forall j, (0 <= j)%Z -> 0 < 360 - IZR j * lon ->
    about (IZR samples * ((if prograde then IZR j * lon else 360 - IZR j * lon) / 360)) (IZR samples * 1e-15) (col j).
Definition rows_follow (lines : Z) (lat : R) (row : Z -> Z) : Prop :=
  forall j, (1 <= j)%Z -> -90 + IZR j * lat < 90 -> about (IZR lines * (IZR j * lat / 180)) (IZR lines * 1e-15) (row j).

(** Row of a Mercator map at the distance [x] from the equator, in radii of it. *)
Definition mercator_row (samples lines : Z) (x : R) : R := IZR lines / 2 + x * IZR samples / (2 * B2R d_pi).
(** Rows at the distances that [distance] gives for the latitudes; a latitude
    without a distance has no row. *)
Definition rows_found (distance : double -> double) (samples lines : Z) (lat : R) (row : Z -> Z) : Prop :=
  forall j, (1 <= j)%Z -> -90 + IZR j * lat < 90 ->
  exists n, is_finite n = true /\ B2R n = -90 + IZR j * lat /\
    (is_finite (distance n) = false -> row j = (-1)%Z) /\
    (is_finite (distance n) = true -> Rabs (B2R (distance n)) <= 1000 ->
     about (mercator_row samples lines (B2R (distance n))) ((IZR lines + IZR samples * Rabs (B2R (distance n)) + 1) * 1e-14) (row j)).

(** The defaults in force for the maps of a run, for user files that the parser
    follows (C66). *)
Definition in_force (u : option user_entry) (d : defaults) : Prop :=
  match u with None => d = defaults_new | Some u => followed u /\ user_says defaults_new u = Some d end.
