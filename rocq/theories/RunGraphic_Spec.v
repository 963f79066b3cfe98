(** Specification vocabulary for C123: the latitudes of normals. *)
From Coq Require Import List ZArith Reals Bool.
From Flocq Require Import Core BinarySingleNaN.
From Verif Require Import Base Flt Num LinAlg_Model Spheroid_Model Spheroid_Spec Params_Model Parse_Model Run_Model Run_Spec Body_Spec.
Open Scope R_scope.

(** The normals at the points of the surface at planetocentric latitude [lat] are at
    latitude [g]. *)
Definition normal_latitude (b : body) (lat g : R) : Prop :=
  - (PI / 2) <= lat <= PI / 2 /\ - (PI / 2) <= g <= PI / 2 /\
  forall far lon, 0 < far -> on_spheroid (real_eq b) (real_pol b) (spherical far lat lon) ->
  exists n, 0 < n /\ gradient (real_eq b) (real_pol b) (spherical far lat lon) = vscale (spherical 1 g lon) n.
