(** Specification vocabulary for C115: the grids of polar stereographic maps in
    files. *)
From Coq Require Import List ZArith Reals Bool.
From Flocq Require Import Core BinarySingleNaN.
From Verif Require Import Base Flt Num Extrema_Model MakeMap_Model Proj_Model Virtual_Model Run_Model RunGrid_Spec RunPolar_Spec.
Open Scope R_scope.
#[local] Existing Instance prec53.
#[local] Existing Instance emax53.

(** The array [d] is black but for the dots [ring j t] of the latitudes
    -90 + j * [lat] and the dots [spoke j t] of the longitudes 360 - j * [lon],
    2000 each. Cells are pairs of a line and a sample. *)
Definition dotted (samples lines : Z) (lat lon : R) (ring spoke : Z -> Z -> Z * Z)
    (d : Z -> option (sigT (fun t : mapty => ct t))) : Prop :=
  let marked k i :=
    (exists j t, (1 <= j)%Z /\ -90 + IZR j * lat < 90 /\ (0 <= t < 2000)%Z /\ ring j t = (k, i)) \/
    (exists j t, (0 <= j)%Z /\ 0 < 360 - IZR j * lon /\ (0 <= t < 2000)%Z /\ spoke j t = (k, i)) in
  forall k i, (0 <= k < lines)%Z -> (0 <= i < samples)%Z ->
    marked k i /\ d (1 + k * samples + i)%Z = Some (existT _ U8 255%Z) \/
    ~ marked k i /\ d (1 + k * samples + i)%Z = Some (existT _ U8 0%Z).

(** An angle near [r] degrees. *)
Definition turned (a : double) (r : R) : Prop := is_finite a = true /\ Rabs (B2R a - r * B2R d_degree) <= 1e-14.
(** Part [t] of a circle cut into 2000. *)
Definition slice (t : Z) : R := IZR t * 360 / 2000.

(** [c] is the cell at the distance [rho] from the middle of the map in the
    direction whose cosine (upward) and sine (to the right) are given, when half
    the shorter side, counted between the middles of the outer cells, is [rim].
    Without a distance there is no cell. *)
Definition dot_at (co si rim rho : double) (samples lines : Z) (c : Z * Z) : Prop :=
  (is_finite rho = false -> c = (-1, -1)%Z) /\
  (is_finite rho = true -> is_finite rim = true -> 1e-3 <= B2R rim <= 1e12 -> Rabs (B2R rho) <= 1e13 * B2R rim ->
   (2 <= samples)%Z -> (2 <= lines)%Z ->
   let cells x := x * IZR (Z.min (samples - 1) (lines - 1)) / (2 * B2R rim) in
   (is_finite co = true -> Rabs (B2R co) <= 1 ->
    about (IZR lines / 2 + cells (B2R rho * B2R co)) ((IZR lines + cells (Rabs (B2R rho))) * 1e-15) (fst c)) /\
   (is_finite si = true -> Rabs (B2R si) <= 1 ->
    about (IZR samples / 2 + cells (B2R rho * B2R si)) ((IZR samples + cells (Rabs (B2R rho))) * 1e-15) (snd c))).

(** Dots of a latitude lie all around the pole, at the radius of the latitude. *)
Definition rings_follow (L : libm ar_double) (radius : double -> double) (graphic : double -> double) (north : bool) (rim : double)
    (samples lines : Z) (lat : R) (ring : Z -> Z -> Z * Z) : Prop :=
  forall j t, (1 <= j)%Z -> -90 + IZR j * lat < 90 -> (0 <= t < 2000)%Z ->
  exists n a, is_number n (-90 + IZR j * lat) /\ turned a (slice t) /\
    dot_at (l_cos L a) (l_sin L a) rim (radius (seen_at north (graphic (Bmult mode_NE n d_degree)))) samples lines (ring j t).

(** Dots of a longitude lie in its direction, at the radii of the angles all
    around the circle. *)
Definition spokes_follow (L : libm ar_double) (radius : double -> double) (north : bool) (rim : double)
    (samples lines : Z) (lon : R) (spoke : Z -> Z -> Z * Z) : Prop :=
  forall j t, (0 <= j)%Z -> 0 < 360 - IZR j * lon -> (0 <= t < 2000)%Z ->
  exists a n, turned a (360 - IZR j * lon) /\ turned n (slice t) /\
    dot_at (l_cos L a) (l_sin L a) rim (radius (seen_at north n)) samples lines (spoke j t).
