(** Specification vocabulary for C29-C34. *)
From Coq Require Import List ZArith Reals Bool.
From Flocq Require Import Core.
From Verif Require Import Base Num LinAlg_Model Maths_Model.
Import ListNotations.
Open Scope R_scope.

(** [r] is between [a] and [b], in either order. *)
Definition between (a b r : R) : Prop := Rmin a b <= r <= Rmax a b.

(** States the bracketing loop can reach from its start. *)
Inductive reached (f : R -> num) (y : num) : rf_state -> rf_state -> Prop :=
| reached_start s : reached f y s s
| reached_step s s' s'' : reached f y s s' -> rf_step f y s' = inl s'' -> reached f y s s''.

(** The bracket of the state encloses a crossing of [y] by [f]. *)
Definition encloses (f : R -> R) (y : R) (s : rf_state) : Prop :=
  exists a b, rf_xl s = Num a /\ rf_xh s = Num b /\ f a < y <= f b.

(** Acceptance of an angle in degrees. *)
Definition accepts (degree limit : R) (x : num) (o : outcome num) : Prop :=
  match x with
  | Num r => if Rle_bool (- limit) r && Rle_bool r limit then o = Ok (Num (r * degree))
             else o = Throw invalid_argument
  | NaN => o = Throw invalid_argument
  end.

(** Vectors and matrices of given dimensions. *)
Definition is_vec (M : nat) (v : vector) : Prop := length v = M.
Definition is_mat (M N : nat) (m : matrix) : Prop :=
  length m = M /\ forall r, In r m -> length r = N.

(** f 0 + f 1 + ... + f (n-1) *)
Fixpoint sum_to (n : nat) (f : nat -> R) : R :=
  match n with O => 0 | S k => sum_to k f + f k end.

(** Euclidean inner product. *)
Definition inner (M : nat) (a b : vector) : R := sum_to M (fun i => vget a i * vget b i).

(** The 3x3 identity. *)
Definition identity3 : matrix := [[1; 0; 0]; [0; 1; 0]; [0; 0; 1]].

(** Two numbers the root finders regard as equal. *)
Definition indistinguishable (x y : R) : Prop :=
  Rabs (x - y) < 2 * bpow radix2 (-52) * Rabs (x + y) \/ Rabs (x - y) < bpow radix2 (-1022) \/
  (Rabs x < 2 * bpow radix2 (-52) /\ Rabs y < 2 * bpow radix2 (-52)).

(** Five-point estimate of the slope of [f] at [x] with step [h]. *)
Definition five_point (f : R -> R) (x h : R) : R :=
  (f (x - 2 * h) - 8 * f (x - h) + 8 * f (x + h) - f (x + 2 * h)) / (12 * h).
Definition slope (f : R -> R) (x : R) : R :=
  five_point f x (2 * bpow radix2 (-52) * (if Rlt_bool x 1 then 1 else x)).
