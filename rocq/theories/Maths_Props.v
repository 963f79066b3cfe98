(** Property theorems C29-C32, C74 and C76: mathematics helpers. *)
From Coq Require Import List ZArith Reals Lra Lia Bool.
From Flocq Require Import Core BinarySingleNaN.
From Verif Require Import Base Flt Num Maths_Model Maths_Spec Maths_Proofs.
Import ListNotations.
Open Scope R_scope.
Local Existing Instance prec53.
Local Existing Instance emax53.

(** C29 except b = c = 0, refuted below. *)
Theorem C29_quadratic_roots_partial :
  (forall a b c, quadratic_roots a b c = None <-> b * b - 4 * a * c < 0) /\
  (forall a b c, a <> 0 -> b <> 0 \/ c <> 0 -> 0 <= b * b - 4 * a * c ->
    exists r1 r2, quadratic_roots a b c = Some (Num r1, Num r2) /\
      forall x, a * x * x + b * x + c = 0 <-> x = r1 \/ x = r2).
Proof. exact (conj quadratic_none quadratic_some). Qed.
Print Assumptions C29_quadratic_roots_partial.

(** a x^2 = 0 has the double root 0, but the second value reported is 0/0. *)
Theorem C29_quadratic_roots_refuted :
  forall a, a <> 0 -> quadratic_roots a 0 0 = Some (Num 0, NaN).
Proof. exact quadratic_double_zero. Qed.
Print Assumptions C29_quadratic_roots_refuted.

Example C29_case : exists r1 r2, quadratic_roots 1 (-3) 2 = Some (Num r1, Num r2) /\
  forall x, 1 * x * x + -3 * x + 2 = 0 <-> x = r1 \/ x = r2.
Proof. apply quadratic_some; lra. Qed.

(** C30 over the reals. *)
Theorem C30_comparisons_real :
  (forall x y ulp, almost_equal (A := ar_num) eps_num tiny_num (Num x) (Num y) ulp = true <->
     Rabs (x - y) < bpow radix2 (-52) * Rabs (x + y) * IZR ulp \/ Rabs (x - y) < bpow radix2 (-1022)) /\
  (forall x y ulp, almost_equal (A := ar_num) eps_num tiny_num x y ulp = almost_equal (A := ar_num) eps_num tiny_num y x ulp) /\
  (forall x ulp, almost_equal (A := ar_num) eps_num tiny_num (Num x) (Num x) ulp = true) /\
  (forall x n, almost_zero (A := ar_num) eps_num (Num x) n = true <-> Rabs x < bpow radix2 (-52) * IZR n) /\
  (forall x n, almost_zero (A := ar_num) eps_num (Num (- x)) n = almost_zero (A := ar_num) eps_num (Num x) n) /\
  (forall x n m, (n <= m)%Z -> almost_zero (A := ar_num) eps_num x n = true ->
     almost_zero (A := ar_num) eps_num x m = true) /\
  (forall x, signum (A := ar_num) (Num x) = if Rlt_bool x 0 then (-1)%Z else if Rlt_bool 0 x then 1%Z else 0%Z) /\
  (forall x, sgn x = if Rlt_bool x 0 then (-1)%Z else 1%Z).
Proof.
  exact (conj almost_equal_spec_R (conj (almost_equal_sym_R eps_num tiny_num) (conj almost_equal_refl_R
    (conj almost_zero_spec_R (conj almost_zero_even_R (conj almost_zero_mono_R (conj signum_spec sgn_spec))))))).
Qed.
Print Assumptions C30_comparisons_real.

(** C30 on doubles, with the rounding of every operation. *)
Theorem C30_comparisons_double :
  (forall x y ulp, almost_equal (A := ar_double) eps_double tiny_double x y ulp =
                   almost_equal (A := ar_double) eps_double tiny_double y x ulp) /\
  (forall x ulp, is_finite x = true -> almost_equal (A := ar_double) eps_double tiny_double x x ulp = true) /\
  (forall x n, almost_zero (A := ar_double) eps_double (Bopp x) n = almost_zero (A := ar_double) eps_double x n) /\
  (forall x n m, (Z.abs n <= 2 ^ 31)%Z -> (Z.abs m <= 2 ^ 31)%Z -> (n <= m)%Z ->
     almost_zero (A := ar_double) eps_double x n = true -> almost_zero (A := ar_double) eps_double x m = true).
Proof.
  exact (conj almost_equal_sym_F (conj almost_equal_refl_F (conj almost_zero_even_F almost_zero_mono_F))).
Qed.
Print Assumptions C30_comparisons_double.

Example C30_case : signum (A := ar_num) (Num 0) = 0%Z /\ sgn 0 = 1%Z /\
  almost_equal (A := ar_num) eps_num tiny_num (Num 1) (Num 2) 2 = false.
Proof.
  rewrite signum_spec, sgn_spec, !Rlt_bool_false by lra. repeat split.
  apply not_true_is_false. rewrite almost_equal_spec_R.
  pose proof eps_small. pose proof tiny_small. rewrite (Rabs_left (1 - 2)), (Rabs_right (1 + 2)) by lra. lra.
Qed.

(** C31: unsuitable bracket; result in the bracket; what else can happen. *)
Theorem C31_bracketed_search :
  (forall (f : R -> R) y xl xh, (y < f xl /\ y < f xh) \/ (f xl < y /\ f xh < y) ->
     root_find (fun x => Num (f x)) (Num y) (Num xl) (Num xh) = Throw invalid_argument) /\
  (forall (f : R -> num) y xl xh v, root_find f (Num y) (Num xl) (Num xh) = Ok v ->
     exists r, v = Num r /\ between xl xh r) /\
  (forall f y xl xh,
     (exists v, root_find f (Num y) (Num xl) (Num xh) = Ok v) \/
     root_find f (Num y) (Num xl) (Num xh) = Throw invalid_argument \/
     root_find f (Num y) (Num xl) (Num xh) = Throw runtime_error).
Proof. exact (conj root_find_unsuitable (conj root_find_in_bracket root_find_result)). Qed.
Print Assumptions C31_bracketed_search.

(** C31: the bracket keeps a crossing of y.  Missing: once a step divides by a
    zero slope the current point is NaN and stays NaN, see below. *)
Theorem C31_bracket_invariant_partial :
  forall (f : R -> R) y xl xh s,
  root_find (fun x => Num (f x)) (Num y) (Num xl) (Num xh) <> Throw invalid_argument ->
  f xl <> y -> f xh <> y ->
  reached (fun x => Num (f x)) (Num y) (rf_start (fun x => Num (f x)) (Num y) (Num xl) (Num xh)) s ->
  rf_x0 s = NaN \/ encloses f y s.
Proof. exact root_find_trace. Qed.
Print Assumptions C31_bracket_invariant_partial.

(** x^3 = 0 on [-1, 1]: the root is the first midpoint, where the slope
    estimate is zero; the search fails. *)
Theorem C31_search_succeeds_refuted :
  root_find (fun x => Num (cube x)) (Num 0) (Num (-1)) (Num 1) = Throw runtime_error /\ cube 0 = 0.
Proof. exact (conj cube_root_lost cube_zero). Qed.
Print Assumptions C31_search_succeeds_refuted.

Example C31_case : root_find (fun x => Num (2 * x)) (Num 2) (Num 1) (Num 3) = Ok (Num 1) /\
  root_find (fun x => Num (2 * x)) (Num 7) (Num 1) (Num 3) = Throw invalid_argument.
Proof. split; [exact linear_root|]. apply root_find_unsuitable. lra. Qed.

(** C32 over the reals with NaN. *)
Theorem C32_angles_real : forall degree x,
  accepts degree 90 x (validate_latitude (A := ar_num) (Num degree) x) /\
  accepts degree 360 x (validate_longitude (A := ar_num) (Num degree) x) /\
  accepts degree 360 x (validate_position_angle (A := ar_num) (Num degree) x).
Proof. exact validate_all. Qed.
Print Assumptions C32_angles_real.

(** C32 on doubles, infinities included ([fval] of an infinity is +-2^1024). *)
Theorem C32_angles_double : forall degree x : double,
  let ok limit := negb (is_nan x) && Rle_bool (- limit) (fval x) && Rle_bool (fval x) limit in
  let v := Bmult mode_NE x degree in
  validate_latitude (A := ar_double) degree x = (if ok 90 then Ok v else Throw invalid_argument) /\
  validate_longitude (A := ar_double) degree x = (if ok 360 then Ok v else Throw invalid_argument) /\
  validate_position_angle (A := ar_double) degree x = (if ok 360 then Ok v else Throw invalid_argument).
Proof. exact validate_doubles. Qed.
Print Assumptions C32_angles_double.

Example C32_case : validate_latitude (A := ar_num) (Num (PI / 180)) (Num 90) = Ok (Num (90 * (PI / 180))) /\
  validate_latitude (A := ar_num) (Num (PI / 180)) (Num 91) = Throw invalid_argument /\
  validate_longitude (A := ar_num) (Num (PI / 180)) NaN = Throw invalid_argument.
Proof.
  repeat split.
  - destruct (validate_all (PI / 180) (Num 90)) as [H _]. unfold accepts in H.
    rewrite !Rle_bool_true in H by lra. exact H.
  - destruct (validate_all (PI / 180) (Num 91)) as [H _]. unfold accepts in H.
    rewrite (Rle_bool_false 91 90), andb_false_r in H by lra. exact H.
Qed.

(** C74: the unbracketed search returns a converged Newton iterate or throws. *)
Theorem C74_newton_result :
  forall (f : R -> R) y x0,
  root_find_guess (fun x => Num (f x)) (Num y) (Num x0) = Throw runtime_error \/
  exists x1 r, root_find_guess (fun x => Num (f x)) (Num y) (Num x0) = Ok (Num r) /\
    slope f x1 <> 0 /\ r = x1 - (f x1 - y) / slope f x1 /\ indistinguishable r x1.
Proof. exact root_find_guess_result. Qed.
Print Assumptions C74_newton_result.

Example C74_case : root_find_guess (fun x => Num 1) (Num 0) (Num 5) = Throw runtime_error.
Proof.
  destruct (root_find_guess_result (fun x => 1) 0 5) as [H|(x1 & r & _ & N & _)]; [exact H|].
  exfalso. apply N. unfold slope, five_point. unfold Rdiv. ring.
Qed.

(** C76: the bracketed search returns an end point solving the equation, a
    point within 2 epsilon of a root, or a Newton step shorter than 2 epsilon. *)
Theorem C76_bracketed_result :
  forall (f : R -> R) y xl xh v, continuity f ->
  root_find (fun x => Num (f x)) (Num y) (Num xl) (Num xh) = Ok v ->
  exists r, v = Num r /\
   (((r = xl \/ r = xh) /\ indistinguishable (f r) y) \/
    (exists z, f z = y /\ Rabs (r - z) < 2 * bpow radix2 (-52)) \/
    (exists x1, slope f x1 <> 0 /\ r = x1 - (f x1 - y) / slope f x1 /\
       Rabs (r - x1) < 2 * bpow radix2 (-52))).
Proof. exact root_find_guarantee. Qed.
Print Assumptions C76_bracketed_result.

Example C76_case : continuity (fun x => 2 * x) /\
  root_find (fun x => Num (2 * x)) (Num 2) (Num 1) (Num 3) = Ok (Num 1).
Proof. split; [|exact linear_root]. intros x. reg. Qed.
