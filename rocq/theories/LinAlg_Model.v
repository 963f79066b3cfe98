(** lib/marc/Vector.h, lib/marc/details/vector.h, lib/marc/Matrix.h and
    lib/marc/Geometry.cpp over the reals (mode R).  A Vector<double, M> is the
    list of its M elements, a Matrix<double, M, N> the list of its M rows. *)
From Coq Require Import List ZArith Reals.
From Verif Require Import Base.
Import ListNotations.
Open Scope R_scope.

Definition vector := list R.
Definition matrix := list (list R).

(** operator[] and operator() inside the dimensions. *)
Definition vget (v : vector) (i : nat) : R := nth i v 0.
Definition mget (m : matrix) (r c : nat) : R := vget (nth r m []) c.

(** [at], lib/marc/Vector.h:158-183 and lib/marc/Matrix.h:164-194. *)
Definition vat (M : nat) (v : vector) (row : Z) : outcome R :=
  if (Z.of_nat M <=? row)%Z then Throw out_of_range else Ok (vget v (Z.to_nat row)).
Definition mat_at (M N : nat) (m : matrix) (row column : Z) : outcome R :=
  if ((Z.of_nat M <=? row) || (Z.of_nat N <=? column))%Z%bool then Throw out_of_range
  else Ok (mget m (Z.to_nat row) (Z.to_nat column)).

(** Element-wise loops of operator+=, operator-= and operator*=,
    lib/marc/Vector.h:234-287. *)
Definition map2 (f : R -> R -> R) (a b : vector) : vector :=
  map (fun p => f (fst p) (snd p)) (combine a b).
Definition vadd := map2 Rplus.
Definition vsub := map2 Rminus.
Definition vscale (v : vector) (x : R) : vector := map (fun e => e * x) v.

(** The same for matrices, lib/marc/Matrix.h:204-257. *)
Definition map2m (f : vector -> vector -> vector) (a b : matrix) : matrix :=
  map (fun p => f (fst p) (snd p)) (combine a b).
Definition madd := map2m vadd.
Definition msub := map2m vsub.
Definition mscale (m : matrix) (x : R) : matrix := map (fun r => vscale r x) m.

(** [dot_product], lib/marc/Vector.h (std::inner_product from T(0)). *)
Definition dot_product (a b : vector) : R :=
  fold_left (fun acc p => acc + fst p * snd p) (combine a b) 0.

(** [magnitude], lib/marc/details/vector.h:69-106, for 1, 2 and 3 rows.  The
    general template (l.43-56) adds to a [const] variable and cannot be
    instantiated, so no other size compiles. *)
Definition magnitude (v : vector) : option R :=
  match v with
  | [x] => Some x
  | [x; y] => Some (sqrt (x * x + y * y))
  | [x; y; z] => Some (sqrt (x * x + y * y + z * z))
  | _ => None
  end.

(** [to_unit_vector], lib/marc/Vector.h. *)
Definition to_unit_vector (v : vector) : option vector :=
  match magnitude v with
  | Some m => Some (map (fun e => e / m) v)
  | None => None
  end.

(** [transpose], lib/marc/Matrix.h:334-344: every element of the result is
    assigned once. *)
Definition transpose (M N : nat) (m : matrix) : matrix :=
  map (fun c => map (fun r => mget m r c) (seq 0 M)) (seq 0 N).

(** Matrix product, lib/marc/Matrix.h:385-401, and matrix times vector,
    lib/marc/Matrix.h:408-419; elements are accumulated from 0. *)
Definition accumulate (N : nat) (f : nat -> R) : R :=
  fold_left (fun acc n => acc + f n) (seq 0 N) 0.
Definition mmul (M N K : nat) (a b : matrix) : matrix :=
  map (fun m => map (fun r => accumulate N (fun n => mget a m n * mget b n r)) (seq 0 K)) (seq 0 M).
Definition mvmul (M N : nat) (a : matrix) (x : vector) : vector :=
  map (fun m => accumulate N (fun n => mget a m n * vget x n)) (seq 0 M).

(** Rotations of a vector, lib/marc/Geometry.cpp:18-67 ([v] and [r] distinct). *)
Definition RotX (angle : R) (v : vector) : vector :=
  [vget v 0; vget v 1 * cos angle + vget v 2 * sin angle;
   - vget v 1 * sin angle + vget v 2 * cos angle].
Definition RotY (angle : R) (v : vector) : vector :=
  [vget v 0 * cos angle - vget v 2 * sin angle; vget v 1;
   vget v 0 * sin angle + vget v 2 * cos angle].
Definition RotZ (angle : R) (v : vector) : vector :=
  [vget v 0 * cos angle + vget v 1 * sin angle;
   - vget v 0 * sin angle + vget v 1 * cos angle; vget v 2].

(** Rotation matrices, lib/marc/Geometry.cpp:69-130 (elements not assigned are
    zero-initialised). *)
Definition RotXMatrix (angle : R) : matrix :=
  [[1; 0; 0]; [0; cos angle; sin angle]; [0; - sin angle; cos angle]].
Definition RotYMatrix (angle : R) : matrix :=
  [[cos angle; 0; - sin angle]; [0; 1; 0]; [sin angle; 0; cos angle]].
Definition RotZMatrix (angle : R) : matrix :=
  [[cos angle; sin angle; 0]; [- sin angle; cos angle; 0]; [0; 0; 1]].
