(** C49: contents of the grids of polar stereographic maps. *)
From Coq Require Import List ZArith Reals Lra Lia Bool.
From Flocq Require Import Core BinarySingleNaN.
From Verif Require Import Base Flt Num Maths_Model Maths_Spec Spheroid_Model Proj_Model Proj_Spec Proj_Proofs
  LinAlg_Model Ortho_Spec PolarGrid_Spec PolarGrid_Proofs.
Import ListNotations.
Open Scope R_scope.

(** Drawing terminates; the white cells are those nearest to 2000 points of each
    latitude circle, and to points of each longitude line and of the longitude line
    opposite to it. *)
Theorem C49_polar : forall low eq pol, 0 < pol -> pol <= eq -> forall north samples lines iv jv (x : num) p,
  map_size samples lines -> (2 <= samples)%Z -> (2 <= lines)%Z -> 0 < iv -> 0 < jv ->
  polar_new (libm_num PI low) (x : ar_num) north = Ok p ->
  exists d g n0 edge, (x = Num d \/ x = NaN /\ d = 0) /\ (forall fuel, (n0 <= fuel)%nat ->
    make_grid samples lines (polar_plot_grid (libm_num PI low) (Num eq : ar_num) (Num (first_eccentricity eq pol) : ar_num) (num_graphic eq pol) p
      fuel samples lines (Num iv : ar_num) (Num jv : ar_num)) = Some (Ok g)) /\
    black_or_white (samples * lines) g /\
    0 < edge /\ edge * IZR (Z.min (samples - 1) (lines - 1)) =
      2 * stereographic_radius (first_eccentricity eq pol) (if north then graphic_latitude eq pol (radians d) else - graphic_latitude eq pol (radians d)) /\
    forall k i, (0 <= k < lines)%Z -> (0 <= i < samples)%Z ->
      (white_at samples g k i <->
       (exists n m, grid_latitude iv n /\ step 0 360 2000 m /\
          polar_spot (first_eccentricity eq pol) edge north samples lines (graphic_latitude eq pol (radians n)) m k i) \/
       (exists n m lon, grid_longitude jv m /\ polar_step north n /\ (lon = m \/ lon = m + 180) /\
          polar_spot (first_eccentricity eq pol) edge north samples lines (radians n) lon k i)).
Proof. exact polar_grid_built. Qed.
Print Assumptions C49_polar.

Example C49_polar_case : map_size 100 80 /\ grid_latitude 30 0 /\ step 0 360 2000 90 /\ grid_longitude 120 240 /\ polar_step true 45 /\
  forall e, polar_spot e (1 / 10) true 100 80 (PI / 2) 90 40 50.
Proof.
  split; [unfold map_size; lia|]. split; [exists 3%Z; split; [lia|]; lra|]. split; [exists 500%Z; split; [lia|]; lra|].
  split; [exists 1%Z; split; [lia|]; lra|]. split; [split; [exists 250%Z; lra|split; lra]|].
  intros e. unfold polar_spot, nearest, stereographic_radius. replace (PI / 4 - PI / 2 / 2) with 0 by field. rewrite tan_0.
  split; (split; [lia|]); lra.
Qed.

(** Refutation of "white cells belong to grid lines": with the prime meridian as the only
    grid line the opposite meridian is drawn as well. *)
Theorem C49_polar_refuted : forall low eq pol, 0 < pol -> pol <= eq -> forall size iv jv p, (3 <= size < 2 ^ 31)%Z -> 180 < iv -> 360 <= jv ->
  polar_new (libm_num PI low) (NaN : ar_num) true = Ok p ->
  exists g n0 edge k i, (forall fuel, (n0 <= fuel)%nat ->
    make_grid size size (polar_plot_grid (libm_num PI low) (Num eq : ar_num) (Num (first_eccentricity eq pol) : ar_num) (num_graphic eq pol) p
      fuel size size (Num iv : ar_num) (Num jv : ar_num)) = Some (Ok g)) /\
    0 < edge /\ edge * IZR (size - 1) = 2 /\
    (0 <= k < size)%Z /\ (0 <= i < size)%Z /\ white_at size g k i /\
    (~ exists n, grid_latitude iv n) /\
    ~ exists latg m, grid_longitude jv m /\ - (PI / 2) < latg <= PI / 2 /\ polar_spot (first_eccentricity eq pol) edge true size size latg m k i.
Proof. exact opposite_white. Qed.
Print Assumptions C49_polar_refuted.

Example C49_polar_refuted_case : exists p, polar_new (libm_num PI 0) (NaN : ar_num) true = Ok p.
Proof. eexists. reflexivity. Qed.
