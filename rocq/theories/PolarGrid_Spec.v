(** Specification vocabulary for the grids of polar stereographic maps (C49). *)
From Coq Require Import List ZArith Reals.
From Verif Require Import Base Proj_Spec Ortho_Spec.
Open Scope R_scope.

(** The cell nearest to the point at planetographic latitude [latg] (radians) and
    longitude [lon] (degrees) of a map whose centre is the pole; [edge] is the
    stereographic radius per cell. *)
Definition polar_spot (e edge : R) (north : bool) (samples lines : Z) (latg lon : R) (k i : Z) : Prop :=
  let rho := stereographic_radius e (if north then latg else - latg) in
  nearest (rho * sin (radians lon) / edge + IZR samples / 2) i /\
  nearest (rho * cos (radians lon) / edge + IZR lines / 2) k.

(** Latitudes (degrees) at which longitude lines are dotted: multiples of 360/2000
    other than the pole opposite to the centre. *)
Definition polar_step (north : bool) (n : R) : Prop :=
  (exists z : Z, n = IZR z * 360 / 2000) /\ -90 <= n <= 90 /\ n <> (if north then -90 else 90).
