(** Specification vocabulary for C46-C51. *)
From Coq Require Import List ZArith Reals Bool Sorting.Sorted.
From Verif Require Import Base Num.
Import ListNotations.
Open Scope Z_scope.

(** 0, 1, ..., n-1. *)
Definition offsets (n : Z) : list Z := map Z.of_nat (seq 0 (Z.to_nat n)).

(** Calls are issued in increasing order of offset, inside the map. *)
Definition in_order {P} (calls : list (P * Z)) : Prop := StronglySorted Z.lt (map snd calls).
Definition inside {P} (n : Z) (calls : list (P * Z)) : Prop :=
  forall p o, In (p, o) calls -> 0 <= o < n.

(** The point plotted at line [k] and sample [i]. *)
Definition plotted {P} (samples : Z) (calls : list (P * Z)) (k i : Z) (p : P) : Prop :=
  In (p, k * samples + i) calls.

(** Map sizes. *)
Definition map_size (samples lines : Z) : Prop :=
  0 <= samples < 2 ^ 64 /\ 0 <= lines < 2 ^ 64 /\ samples * lines < 2 ^ 64.

(** Grid contents: values 0 and 255 only. *)
Definition black_or_white (n : Z) (g : list Z) : Prop :=
  Z.of_nat (length g) = n /\ forall v, In v g -> v = 0 \/ v = 255.
Definition white_at (samples : Z) (g : list Z) (k i : Z) : Prop :=
  nth_error g (Z.to_nat (k * samples + i)) = Some 255.

Open Scope R_scope.

(** [k] is the non-negative integer nearest to [x], half-way cases upwards. *)
Definition nearest (x : R) (k : Z) : Prop :=
  (0 <= k)%Z /\ IZR k - 1 / 2 <= x < IZR k + 1 / 2 /\ - (1 / 2) < x.

(** Latitudes and longitudes of the grid lines, in degrees. *)
Definition grid_latitude (interval n : R) : Prop :=
  exists j : Z, (1 <= j)%Z /\ n = -90 + IZR j * interval /\ n < 90.
Definition grid_longitude (interval m : R) : Prop :=
  exists j : Z, (0 <= j)%Z /\ m = 360 - IZR j * interval /\ 0 < m.

(** [x] and [y] are the same angle (degrees). *)
Definition same_degrees (x y : R) : Prop := exists j : Z, x = y + 360 * IZR j.

(** ** Projections of a spheroid onto a plane *)
(** Distance from the axis and height of the surface point whose outward normal
    makes the angle [latg] with the equatorial plane. *)
Definition surface_r (eq pol latg : R) : R := eq ^ 2 * cos latg / sqrt ((eq * cos latg) ^ 2 + (pol * sin latg) ^ 2).
Definition surface_z (eq pol latg : R) : R := pol ^ 2 * sin latg / sqrt ((eq * cos latg) ^ 2 + (pol * sin latg) ^ 2).

(** Length of a meridian arc per unit of [latg]. *)
Definition meridian_speed (eq pol latg s : R) : Prop :=
  exists dr dz, derivable_pt_lim (surface_r eq pol) latg dr /\ derivable_pt_lim (surface_z eq pol) latg dz /\
    0 < s /\ s * s = dr * dr + dz * dz.

(** A map (longitude, height(latg)) has the same scale along the meridian and
    along the parallel; [k] is that scale. *)
Definition cylindrical_scale (eq pol : R) (height : R -> R) (latg k : R) : Prop :=
  exists s dh, meridian_speed eq pol latg s /\ derivable_pt_lim height latg dh /\
    k * s = dh /\ k * surface_r eq pol latg = 1.

(** The same for a map in polar coordinates (radius(latg), longitude). *)
Definition azimuthal_scale (eq pol : R) (radius : R -> R) (latg k : R) : Prop :=
  exists s dr, meridian_speed eq pol latg s /\ derivable_pt_lim radius latg dr /\
    k * s = - dr /\ k * surface_r eq pol latg = radius latg.

(** A root finder whose answers are solutions inside the bracket. *)
Definition exact_finder (find : ar_num -> ar_num -> ar_num -> (ar_num -> ar_num) -> outcome ar_num) : Prop :=
  forall y lo hi f r, find (Num y) (Num lo) (Num hi) f = Ok r ->
    exists x, r = Num x /\ lo <= x <= hi /\ f (Num x) = Num y.

(** Isometric latitude on a spheroid of first eccentricity [e]. *)
Definition isometric_latitude (e latg : R) : R :=
  ln (tan (PI / 4 + latg / 2) * Rpower ((1 - e * sin latg) / (1 + e * sin latg)) (e / 2)).

(** Polar stereographic radius for unit coefficient. *)
Definition stereographic_radius (e latg : R) : R :=
  tan (PI / 4 - latg / 2) * Rpower ((1 + e * sin latg) / (1 - e * sin latg)) (e / 2).

(** Position of the center of cell (k, i) relative to the center of the map. *)
Definition across (samples i : Z) : R := IZR i + 1 / 2 - IZR samples / 2.
Definition along_line (lines k : Z) : R := IZR k + 1 / 2 - IZR lines / 2.
Definition from_center (samples lines k i : Z) : R := sqrt (across samples i ^ 2 + along_line lines k ^ 2).
