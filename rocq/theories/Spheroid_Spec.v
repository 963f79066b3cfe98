(** Specification vocabulary for C35-C40. *)
From Coq Require Import List Reals.
From Verif Require Import Num LinAlg_Model Maths_Spec.
Import ListNotations.
Open Scope R_scope.

(** Point at distance [r] from the centre, latitude [lat], longitude [lon]. *)
Definition spherical (r lat lon : R) : vector := [r * cos lat * cos lon; r * cos lat * sin lon; r * sin lat].

(** Points of the spheroid and the outward normal direction (gradient). *)
Definition on_spheroid (eq pol : R) (p : vector) : Prop :=
  (vget p 0 ^ 2 + vget p 1 ^ 2) / eq ^ 2 + vget p 2 ^ 2 / pol ^ 2 = 1.
Definition outside (eq pol : R) (p : vector) : Prop :=
  1 < (vget p 0 ^ 2 + vget p 1 ^ 2) / eq ^ 2 + vget p 2 ^ 2 / pol ^ 2.
Definition gradient (eq pol : R) (p : vector) : vector :=
  [vget p 0 / eq ^ 2; vget p 1 / eq ^ 2; vget p 2 / pol ^ 2].

(** Length, unit vector and cosine of the angle between two vectors. *)
Definition norm3 (v : vector) : R := sqrt (inner 3 v v).
Definition angle_cosine (u v : vector) : R := inner 3 u v / (norm3 u * norm3 v).

Definition minus3 (u v : vector) : vector :=
  [vget u 0 - vget v 0; vget u 1 - vget v 1; vget u 2 - vget v 2].

(** Radius of curvature of the ellipse (x/a)^2 + (z/c)^2 = 1 at its point (x, z). *)
Definition ellipse_curvature_radius (a c x z : R) : R :=
  sqrt (a ^ 4 * z ^ 2 + c ^ 4 * x ^ 2) ^ 3 / (a ^ 4 * c ^ 4).

(** The point of the line [p + k d]. *)
Definition along (p d : vector) (k : R) : vector :=
  [vget p 0 + k * vget d 0; vget p 1 + k * vget d 1; vget p 2 + k * vget d 2].

(** Planetocentric coordinates with zero longitude on the negative y axis and
    longitude increasing towards positive x. *)
Definition has_coordinates (p : vector) (lat lon : R) : Prop :=
  exists r, 0 < r /\ - (PI / 2) <= lat <= PI / 2 /\ - PI < lon <= PI /\
    p = [r * cos lat * sin lon; - (r * cos lat * cos lon); r * sin lat].
