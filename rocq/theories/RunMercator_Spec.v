(** Specification vocabulary for C110: the cells of Mercator maps. *)
From Coq Require Import List ZArith Reals Bool.
From Flocq Require Import Core BinarySingleNaN.
From Verif Require Import Base Flt Num Virtual_Model Run_Model Run_Spec.
Open Scope R_scope.

(** Longitude, in degrees, of the middle of sample [i]: the whole circle from the
    meridian of 0 degrees on, eastward or westward. *)
Definition circle_longitude (prograde : bool) (i samples : Z) : R :=
  if prograde then 360 - 360 * fraction i samples else 360 * fraction i samples.

(** Distance from the equator, in radii of it, of the middle of line [k] of a map
    whose samples divide the equator evenly and whose cells are square. *)
Definition line_ordinate (k samples lines : Z) : R :=
  2 * B2R d_pi / IZR samples * (IZR k + / 2 - IZR lines / 2).
