(** lib/marc/Mathematics.h, lib/marc/Validate.h and lib/marc/root_find.cpp. *)
From Coq Require Import List ZArith Reals Bool.
From Flocq Require Import Core BinarySingleNaN.
From Verif Require Import Base Flt Num.
Import ListNotations.

Section Compare.
Context {A : arith}.
(** [std::numeric_limits<double>::epsilon()] and [min()]. *)
Context (eps tiny : A).

(** [almost_equal], lib/marc/Mathematics.h:64-78; [int ulp] is converted to
    [double] for the product. *)
Definition almost_equal (x y : A) (ulp : Z) : bool :=
  a_lt A (a_abs A (a_sub A x y)) (a_mul A (a_mul A eps (a_abs A (a_add A x y))) (a_of_Z A ulp))
  || a_lt A (a_abs A (a_sub A x y)) tiny.

(** [almost_zero], lib/marc/Mathematics.h:109-119. *)
Definition almost_zero (x : A) (n : Z) : bool :=
  a_lt A (a_abs A x) (a_mul A eps (a_of_Z A n)).

(** [signum], lib/marc/Mathematics.h:128-134. *)
Definition signum (x : A) : Z :=
  (Z.b2z (a_lt A (a_of_Z A 0) x) - Z.b2z (a_lt A x (a_of_Z A 0)))%Z.

(** [is_almost_equal], lib/marc/root_find.cpp:61-71. *)
Definition is_almost_equal (lhs rhs : A) : bool :=
  almost_equal lhs rhs 2 || (almost_zero lhs 2 && almost_zero rhs 2).

(** [validate_latitude], [validate_longitude], [validate_position_angle],
    lib/marc/Validate.h:38-44, 59-71, 86-92.  [degree] is C::degree. *)
Definition validate_latitude (degree lat : A) : outcome A :=
  if a_isnan A lat || a_lt A lat (a_of_Z A (-90)) || a_lt A (a_of_Z A 90) lat
  then Throw invalid_argument else Ok (a_mul A lat degree).
Definition validate_longitude (degree lon : A) : outcome A :=
  if a_isnan A lon || a_lt A lon (a_of_Z A (-360)) || a_lt A (a_of_Z A 360) lon
  then Throw invalid_argument else Ok (a_mul A lon degree).
Definition validate_position_angle (degree north : A) : outcome A :=
  if a_isnan A north || a_lt A north (a_of_Z A (-360)) || a_lt A (a_of_Z A 360) north
  then Throw invalid_argument else Ok (a_mul A north degree).

End Compare.

(** Constants in the two arithmetics. *)
Definition eps_double : double := dlit 1 (-52).
Definition tiny_double : double := dlit 1 (-1022).
Definition eps_num : num := Num (bpow radix2 (-52)).
Definition tiny_num : num := Num (bpow radix2 (-1022)).

Open Scope R_scope.

(** [sgn], lib/marc/Mathematics.h:146-152, on a real number. *)
Definition sgn (x : R) : Z := (Z.b2z (Rle_bool 0 x) - Z.b2z (Rlt_bool x 0))%Z.

(** [quadratic_roots], lib/marc/Mathematics.h:176-201: no result, or the two
    values stored in [roots]. *)
Definition quadratic_roots (a b c : R) : option (num * num) :=
  let discriminant := b * b - 4 * a * c in
  if Rlt_bool discriminant 0 then None
  else
    let q := - (b + IZR (sgn b) * sqrt discriminant) / 2 in
    Some (num_div (Num q) (Num a), num_div (Num c) (Num q)).

(** ** root_find with a bracket *)

Definition nadd := a_add ar_num.  Definition nsub := a_sub ar_num.
Definition nmul := a_mul ar_num.  Definition ndiv := a_div ar_num.
Definition nlt := a_lt ar_num.    Definition nabs := a_abs ar_num.

Section RootFind.
(** The function passed by the caller; NaN arguments give NaN. *)
Context (f : R -> num).
Definition app (x : num) : num := match x with Num r => f r | NaN => NaN end.

(** [first_derivative], lib/marc/root_find.cpp:35-59. *)
Definition first_derivative (x : num) : num :=
  let e := nmul (Num 2) eps_num in
  let h := if nlt x (Num 1) then e else nmul e x in
  ndiv (nsub (nadd (nsub (app (nsub x (nmul (Num 2) h)))
                         (nmul (Num 8) (app (nsub x h))))
                   (nmul (Num 8) (app (nadd x h))))
             (app (nadd x (nmul (Num 2) h))))
       (nmul (Num 12) h).

(** Variables of the loop, lib/marc/root_find.cpp:224-234. *)
Record rf_state := RF { rf_xl : num; rf_xh : num; rf_x0 : num; rf_y0 : num; rf_dx : num; rf_dxold : num }.

(** One iteration, lib/marc/root_find.cpp:236-270: the next state, or the
    value returned on convergence. *)
Definition rf_step (y : num) (s : rf_state) : rf_state + num :=
  let '(RF xl xh x0 y0 dx dxold) := s in
  let df := first_derivative x0 in
  let '(dx', x0') :=
    if nlt (Num 0) (nmul (nadd (nsub (nmul (nsub x0 xh) df) y0) y)
                         (nadd (nsub (nmul (nsub x0 xl) df) y0) y))
       || nlt (nabs (nmul dxold df)) (nabs (nmul (Num 2) (nsub y0 y)))
    then let d := ndiv (nsub xh xl) (Num 2) in (d, nadd xl d)
    else let d := ndiv (nsub y0 y) df in (d, nsub x0 d) in
  if almost_zero (A := ar_num) eps_num dx' 2 then inr x0'
  else
    let y0' := app x0' in
    inl (if nlt y0' y then RF x0' xh x0' y0' dx' dx else RF xl x0' x0' y0' dx' dx).

Fixpoint rf_loop (n : nat) (y : num) (s : rf_state) : outcome num :=
  match n with
  | O => Throw runtime_error
  | S m => match rf_step y s with
           | inl s' => rf_loop m y s'
           | inr x => Ok x
           end
  end.

(** Start of the loop, lib/marc/root_find.cpp:215-232. *)
Definition rf_start (y xl xh : num) : rf_state :=
  let '(xl, xh) := if nlt y (app xl) then (xh, xl) else (xl, xh) in
  let dxold := nabs (nsub xh xl) in
  let x0 := ndiv (nadd xl xh) (Num 2) in
  RF xl xh x0 (app x0) dxold dxold.

(** [root_find(y, xl, xh, f)], lib/marc/root_find.cpp:187-275. *)
Definition root_find (y xl xh : num) : outcome num :=
  let yl := app xl in
  let yh := app xh in
  if (nlt y yl && nlt y yh) || (nlt yl y && nlt yh y) then Throw invalid_argument
  else if is_almost_equal (A := ar_num) eps_num tiny_num yl y then Ok xl
  else if is_almost_equal (A := ar_num) eps_num tiny_num yh y then Ok xh
  else rf_loop 100 y (rf_start y xl xh).

(** [newton_raphson], lib/marc/root_find.cpp:73-120; NaN if not converged. *)
Fixpoint newton_raphson (n : nat) (y x0 : num) : num :=
  match n with
  | O => NaN
  | S m =>
      let x := nsub x0 (ndiv (nsub (app x0) y) (first_derivative x0)) in
      if is_almost_equal (A := ar_num) eps_num tiny_num x x0 then x else newton_raphson m y x
  end.

(** Search loop of [root_find(y, x0, f)], lib/marc/root_find.cpp:160-176. *)
Fixpoint search_loop (n : nat) (y x0 stop : num) : outcome num :=
  match n with
  | O => Throw runtime_error
  | S m =>
      let x := newton_raphson 20 y x0 in
      if negb (num_isnan x) then Ok x
      else
        let x0 := nadd x0 (Num (1 / 1000)) in
        if negb (nlt x0 stop) && negb (num_isnan x0) then Throw runtime_error
        else search_loop m y x0 stop
  end.

(** [root_find(y, x0, f)], lib/marc/root_find.cpp:123-184. *)
Definition root_find_guess (y x0 : num) : outcome num :=
  let x := newton_raphson 20 y x0 in
  if negb (num_isnan x) then Ok x
  else search_loop 10 y (nsub x0 (nmul x0 (Num 2))) (nadd x0 (nmul x0 (Num 2))).

End RootFind.
