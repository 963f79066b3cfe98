(** Specification vocabulary for C114: the cells of polar stereographic maps. *)
From Coq Require Import List ZArith Reals Bool.
From Flocq Require Import Core BinarySingleNaN.
From Verif Require Import Base Flt Num Spheroid_Model Proj_Model Virtual_Model Parse_Model Parse_Spec Run_Model Run_Spec.
Open Scope R_scope.

(** A double that is the number [r]. *)
Definition is_number (x : double) (r : R) : Prop := is_finite x = true /\ B2R x = r.

(** Distance of the middle of cell [i] of [n] from the middle of all, in cells. *)
Definition from_center (i n : Z) : R := IZR i + / 2 - IZR n / 2.

(** What the entry says: the pole in the middle, north unless given, and the
    latitude at the nearer edges, 0 unless given. *)
Definition pole_says (o : option (option average * bool * option lat_entry)) : bool :=
  match o with Some (_, north, _) => north | None => true end.
Definition edge_says (X : outside) (b : body) (o : option (option average * bool * option lat_entry)) (edge : double) : Prop :=
  match o with
  | Some (_, _, Some l) =>
      exists d, lat_of (l_degree (x_libm X)) (x_centric X) b l = Some d /\
        (is_finite d = true -> is_finite edge = true /\ Rabs (B2R edge - B2R d * B2R d_degree) <= 1e-15)
  | _ => is_number edge 0
  end.

(** The meridian through a cell has the argument of the cell, counted from the
    upward direction to the right on maps of the north of prograde and of the
    south of retrograde bodies, else to the left. *)
Definition sideways (north prograde : bool) (i samples : Z) : R :=
  if Bool.eqb north prograde then from_center i samples else - from_center i samples.

(** Latitudes change sign on maps of the south, the sign of a zero aside. *)
Definition seen_at (north : bool) (x : double) : double := if north then x else neg (A := ar_double) x.

(** Radius, on the plane of projection, of a cell [h] cells from the middle,
    when the nearer edges are at [edge]. *)
Definition cell_radius (edge h : R) (samples lines : Z) : R := 2 * edge * h / IZR (Z.min samples lines).
