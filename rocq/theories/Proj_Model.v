(** Map projections without a view: lib/marc/SimpleCylindrical.{h,cpp},
    lib/marc/Mercator.cpp, lib/marc/PolarStereographic.cpp and
    [MapFactory::make_grid].  Generic in the arithmetic, in the functions of
    <cmath> and in the virtual latitude conversions of the body. *)
From Coq Require Import List ZArith Reals Bool.
From Flocq Require Import Core BinarySingleNaN.
From Verif Require Import Base Flt Num Maths_Model Spheroid_Model.
Import ListNotations.
Open Scope Z_scope.

(** Functions of <cmath> and constants of lib/marc/Constants.h:126-135, 364. *)
Record libm (A : arith) := Libm {
  l_sin : A -> A; l_cos : A -> A; l_tan : A -> A; l_log : A -> A;
  l_pow : A -> A -> A; l_hypot : A -> A -> A; l_atan2 : A -> A -> A;
  l_round : A -> A;
  l_pi : A; l_2pi : A; l_pi2 : A; l_pi4 : A; l_degree : A;
  l_eps : A; l_tiny : A }.
Arguments l_sin {A}. Arguments l_cos {A}. Arguments l_tan {A}. Arguments l_log {A}.
Arguments l_pow {A}. Arguments l_hypot {A}. Arguments l_atan2 {A}. Arguments l_round {A}.
Arguments l_pi {A}. Arguments l_2pi {A}. Arguments l_pi2 {A}. Arguments l_pi4 {A}.
Arguments l_degree {A}. Arguments l_eps {A}. Arguments l_tiny {A}.

(** [x <= y] for floating point: false when a NaN is involved. *)
Definition a_le (A : arith) (x y : A) : bool :=
  negb (a_isnan A x) && negb (a_isnan A y) && negb (a_lt A y x).

(** ** The loops of plot_map *)
Section Loops.
Context {P : Type}.

(** [for (i = 0; i < samples; ++i, ++offset)] of every plot_map: [f i] yields
    the point to plot, nothing, or an exception that leaves the loop.  The
    result is the list of calls of the plot functor and how the loop ends;
    [n] iterations are left. *)
Fixpoint plot_row (n : nat) (f : Z -> outcome (option P)) (i offset : Z)
  : list (P * Z) * outcome Z :=
  match n with
  | O => ([], Ok offset)
  | S m =>
      match f i with
      | Ok c =>
          let (r, o) := plot_row m f (i + 1) (wrap (offset + 1)) in
          (match c with Some p => (p, offset) :: r | None => r end, o)
      | Throw e => ([], Throw e)
      | UB u => ([], UB u)
      end
  end.

(** [for (k = 0; k < lines; ++k)]; [row k] is the part of the body before the
    inner loop. *)
Fixpoint plot_rows (n : nat) (samples : Z) (row : Z -> outcome (Z -> outcome (option P)))
    (k offset : Z) : list (P * Z) * outcome Z :=
  match n with
  | O => ([], Ok offset)
  | S m =>
      match row k with
      | Ok f =>
          match plot_row (Z.to_nat samples) f 0 offset with
          | (r, Ok o) => let (rs, o') := plot_rows m samples row (k + 1) o in (r ++ rs, o')
          | (r, e) => (r, e)
          end
      | Throw e => ([], Throw e)
      | UB u => ([], UB u)
      end
  end.

Definition plot_loops (samples lines : Z) (row : Z -> outcome (Z -> outcome (option P))) :=
  plot_rows (Z.to_nat lines) samples row 0 0.
End Loops.

(** ** Drawing on a grid (std::vector<std::uint8_t>) *)

(** [grid[i] = white]. *)
Definition put (grid : list Z) (i : Z) : outcome (list Z) :=
  if (0 <=? i) && (i <? Z.of_nat (length grid)) then Ok (upd grid (Z.to_nat i) 255)
  else UB ub_access.

(** [std::fill(begin + first, begin + first + n, white)]. *)
Fixpoint fill_row (n : nat) (first : Z) (grid : list Z) : outcome (list Z) :=
  match n with
  | O => Ok grid
  | S m => bind (put grid first) (fun g => fill_row m (first + 1) g)
  end.

(** [for (k = 0; k < lines; ++k) grid[k * samples + i] = white]; [n] iterations
    are left. *)
Fixpoint fill_column (n : nat) (samples i k : Z) (grid : list Z) : outcome (list Z) :=
  match n with
  | O => Ok grid
  | S m => bind (put grid (wrap (k * samples + i))) (fun g => fill_column m samples i (k + 1) g)
  end.

(** A [for] loop over a floating point variable: [None] when [fuel] iterations
    do not suffice, so a loop that never ends is [None] for every [fuel]. *)
Fixpoint for_loop {V G} (fuel : nat) (test : V -> bool) (next : V -> V)
    (body : V -> G -> outcome G) (v : V) (g : G) : option (outcome G) :=
  match fuel with
  | O => None
  | S n =>
      if test v then
        match body v g with
        | Ok g' => for_loop n test next body (next v) g'
        | e => Some e
        end
      else Some (Ok g)
  end.

(** Sequencing of two such loops. *)
Definition then_loop {G} (x : option (outcome G)) (f : G -> option (outcome G)) : option (outcome G) :=
  match x with Some (Ok g) => f g | e => e end.

Section Projections.
Context {A : arith} (L : libm A).
Local Notation Zc := (a_of_Z A).
Local Notation "x + y" := (a_add A x y).
Local Notation "x - y" := (a_sub A x y).
Local Notation "x * y" := (a_mul A x y).
Local Notation "x / y" := (a_div A x y).
Local Notation "x < y" := (a_lt A x y).
Local Notation "x <= y" := (a_le A x y).

(** 0.5; also [-x], the sign of a zero aside. *)
Definition half : A := Zc 1 / Zc 2.
Definition neg (x : A) : A := Zc 0 - x.

(** The latitude loop shared by the cylindrical plot_grid functions,
    lib/marc/SimpleCylindrical.cpp:158-176, lib/marc/Mercator.cpp:185-200:
    [ordinate n] is the argument of std::round. *)
Definition draw_latitude (samples lines : Z) (ordinate : A -> A) (n : A) (grid : list Z) : outcome (list Z) :=
  let k := l_round L (ordinate n) in
  if (Zc 0 <= k) && (k < Zc lines) then
    bind (a_size A (k * Zc samples)) (fun first => fill_row (Z.to_nat samples) first grid)
  else Ok grid.
Definition latitude_lines (fuel : nat) (samples lines : Z) (interval : A) (ordinate : A -> A)
    (grid : list Z) : option (outcome (list Z)) :=
  for_loop fuel (fun n => n < Zc 90) (fun n => n + interval)
    (draw_latitude samples lines ordinate) (Zc (-90) + interval) grid.

(** The longitude loop, lib/marc/SimpleCylindrical.cpp:182-199,
    lib/marc/Mercator.cpp:203-216: [abscissa m] is the argument of std::round. *)
Definition draw_longitude (prograde : bool) (samples lines : Z) (abscissa : A -> A) (m : A)
    (grid : list Z) : outcome (list Z) :=
  bind (a_size A (l_round L (abscissa m))) (fun i =>
  let i := if prograde then wrap (samples - i)%Z else i in
  if (i <? samples)%Z then fill_column (Z.to_nat lines) samples i 0 grid else Ok grid).
Definition longitude_lines (fuel : nat) (prograde : bool) (samples lines : Z) (interval : A)
    (abscissa : A -> A) (grid : list Z) : option (outcome (list Z)) :=
  for_loop fuel (fun m => Zc 0 < m) (fun m => m - interval)
    (draw_longitude prograde samples lines abscissa) (Zc 360) grid.

(** [MapFactory::make_grid], lib/marc/MapFactory.cpp:14-41. *)
Definition make_grid (samples lines : Z) (plot_grid : list Z -> option (outcome (list Z)))
  : option (outcome (list Z)) :=
  plot_grid (repeat 0%Z (Z.to_nat (wrap (samples * lines)%Z))).

(** ** Simple cylindrical *)
Section SimpleCylindrical.
(** The body: sense of rotation and the virtual latitude conversions. *)
Context (prograde : bool) (graphic centric : A -> A).

Record simple_cyl := SimpleCyl { sc_lo_lat : A; sc_hi_lat : A; sc_lo_lon : A; sc_hi_lon : A; sc_graphic : bool }.

(** [boundary_latitude], lib/marc/SimpleCylindrical.cpp:45-60. *)
Definition boundary_latitude (degrees : A) (planetographic : bool) : outcome A :=
  bind (validate_latitude (l_degree L) degrees) (fun latitude =>
  Ok (if planetographic then graphic latitude else latitude)).

(** Constructor, lib/marc/SimpleCylindrical.cpp:64-97. *)
Definition simple_cyl_new (lo_lat hi_lat lo_lon hi_lon : A) (graphic_lat : bool) : outcome simple_cyl :=
  bind (boundary_latitude lo_lat graphic_lat) (fun lo_lat =>
  bind (boundary_latitude hi_lat graphic_lat) (fun hi_lat =>
  bind (validate_longitude (l_degree L) lo_lon) (fun lo =>
  bind (validate_longitude (l_degree L) hi_lon) (fun hi =>
  if hi < lo then Ok (SimpleCyl lo_lat hi_lat (lo - l_2pi L) hi graphic_lat)
  else if almost_equal (l_eps L) (l_tiny L) lo hi 2
          || (almost_zero (l_eps L) lo 2 && almost_zero (l_eps L) hi 2)
  then Ok (SimpleCyl lo_lat hi_lat lo (hi + l_2pi L) graphic_lat)
  else Ok (SimpleCyl lo_lat hi_lat lo hi graphic_lat))))).

Context (p : simple_cyl).

(** [get_longitude], lib/marc/SimpleCylindrical.h:122-136. *)
Definition sc_longitude (i : Z) (cf : A) : A :=
  let lon := (Zc i + half) * cf in
  if prograde then sc_hi_lon p - lon else lon + sc_lo_lon p.

(** [plot_map], lib/marc/SimpleCylindrical.cpp:105-132. *)
Definition sc_plot_map (samples lines : Z) : list ((A * A) * Z) * outcome Z :=
  let cf := (sc_hi_lat p - sc_lo_lat p) / Zc lines in
  let lon_cf := (sc_hi_lon p - sc_lo_lon p) / Zc samples in
  plot_loops samples lines (fun k =>
    let lat := (Zc k + half) * cf + sc_lo_lat p in
    let lat := if sc_graphic p then centric lat else lat in
    Ok (fun i => Ok (Some (lat, sc_longitude i lon_cf)))).

(** [plot_grid], lib/marc/SimpleCylindrical.cpp:134-200. *)
Definition sc_plot_grid (fuel : nat) (samples lines : Z) (lat_interval lon_interval : A)
    (grid : list Z) : option (outcome (list Z)) :=
  let lo_lat := sc_lo_lat p / l_degree L in
  let hi_lat := sc_hi_lat p / l_degree L in
  let lo_lon := sc_lo_lon p / l_degree L in
  let hi_lon := sc_hi_lon p / l_degree L in
  let lr := Zc lines / (hi_lat - lo_lat) in
  let sr := Zc samples / (hi_lon - lo_lon) in
  then_loop
    (latitude_lines fuel samples lines lat_interval (fun n => (n - lo_lat) * lr) grid)
    (longitude_lines fuel prograde samples lines lon_interval (fun m =>
       let lo_lon_2 := if Zc 360 < m - lo_lon then lo_lon + Zc 360 else lo_lon in
       (m - lo_lon_2) * sr)).
End SimpleCylindrical.

(** ** Mercator *)
Section Mercator.
(** The body: sense of rotation, first eccentricity and latitude conversions;
    [find y xl xh f] is MaRC::root_find. *)
Context (prograde : bool) (e : A) (graphic centric : A -> A)
        (find : A -> A -> A -> (A -> A) -> outcome A).

(** [mercator_x], lib/marc/Mercator.cpp:45-55. *)
Definition mercator_x (latg : A) : A :=
  let t := e * l_sin L latg in
  l_log L (l_tan L (l_pi4 L + latg / Zc 2) * l_pow L ((Zc 1 - t) / (Zc 1 + t)) (e / Zc 2)).

(** [get_longitude], lib/marc/Mercator.cpp:219-241; longitude_low is 0,
    lib/marc/DefaultConfiguration.h. *)
Definition mercator_longitude (i samples : Z) : A :=
  let lo_lon := Zc 0 * l_degree L in
  let lon := (Zc i + half) / Zc samples * l_2pi L + lo_lon in
  if prograde then l_2pi L - lon else lon.

(** [plot_map], lib/marc/Mercator.cpp:90-163. *)
Definition mercator_plot_map (samples lines : Z) : list ((A * A) * Z) * outcome Z :=
  let xmax := Zc lines / Zc samples * l_pi L in
  plot_loops samples lines (fun k =>
    let x := (Zc k + half) / Zc lines * Zc 2 * xmax - xmax in
    bind (find x (neg (l_pi2 L)) (l_pi2 L) mercator_x) (fun latg =>
    let lat := centric latg in
    Ok (fun i => Ok (Some (lat, mercator_longitude i samples))))).

(** [plot_grid], lib/marc/Mercator.cpp:166-217. *)
Definition mercator_plot_grid (fuel : nat) (samples lines : Z) (lat_interval lon_interval : A)
    (grid : list Z) : option (outcome (list Z)) :=
  let xmax := Zc lines / Zc samples * l_pi L in
  let pix_conv_val := xmax / Zc lines * Zc 2 in
  then_loop
    (latitude_lines fuel samples lines lat_interval (fun n =>
       mercator_x (graphic (n * l_degree L)) / pix_conv_val + Zc lines / Zc 2) grid)
    (longitude_lines fuel prograde samples lines lon_interval (fun m => m * Zc samples / Zc 360)).
End Mercator.

(** ** Polar stereographic *)
Section PolarStereographic.
Context (prograde : bool) (eq_rad e : A) (graphic centric : A -> A)
        (find : A -> A -> A -> (A -> A) -> outcome A).

(** [rho_coefficient], lib/marc/PolarStereographic.cpp:39-49. *)
Definition rho_coefficient : A :=
  Zc 2 * eq_rad * l_pow L (Zc 1 + e) (neg (Zc 1 - e) / Zc 2) * l_pow L (Zc 1 - e) (neg (Zc 1 + e) / Zc 2).

(** [distortion_coefficient], lib/marc/PolarStereographic.cpp:61-71. *)
Definition distortion_coefficient : A :=
  l_pow L (Zc 1 + e) (Zc 1 - Zc 2 * e) * l_pow L (Zc 1 - e) (Zc 1 + Zc 2 * e) / (Zc 4 * eq_rad * eq_rad).

(** [stereo_rho_impl], lib/marc/PolarStereographic.cpp:100-111. *)
Definition stereo_rho_impl (coeff latg : A) : A :=
  let t := e * l_sin L latg in
  coeff * l_tan L (l_pi4 L - latg / Zc 2) * l_pow L ((Zc 1 + t) / (Zc 1 - t)) (e / Zc 2).

Record polar := Polar { ps_max_lat : A; ps_north : bool }.

(** Constructor, lib/marc/PolarStereographic.cpp:115-132; the coefficients are
    functions of the body. *)
Definition polar_new (max_lat : A) (north_pole : bool) : outcome polar :=
  if negb (a_isnan A max_lat) && (Zc 90 <= a_abs A max_lat) then Throw invalid_argument
  else Ok (Polar (if a_isnan A max_lat then Zc 0 else max_lat * l_degree L) north_pole).

Context (p : polar).

(** [stereo_rho] and [distortion], lib/marc/PolarStereographic.cpp:327-341. *)
Definition stereo_rho (latg : A) : A :=
  stereo_rho_impl rho_coefficient (if ps_north p then latg else neg latg).
Definition ps_distortion (latg : A) : A :=
  Zc 1 + distortion_coefficient * l_pow L (stereo_rho latg) (Zc 2).

(** [plot_map], lib/marc/PolarStereographic.cpp:140-238. *)
Definition polar_plot_map (samples lines : Z) : list ((A * A) * Z) * outcome Z :=
  let rho_max := stereo_rho (graphic (ps_max_lat p)) in
  let pix_conv_val := Zc 2 * rho_max / Zc (Z.min samples lines) in
  let ccw := (ps_north p && prograde) || (negb (ps_north p) && negb prograde) in
  plot_loops samples lines (fun k =>
    let X := Zc k + half - Zc lines / Zc 2 in
    Ok (fun i =>
      let Y := Zc i + half - Zc samples / Zc 2 in
      let rho := pix_conv_val * l_hypot L Y X in
      bind (find rho (neg (l_pi2 L)) (l_pi2 L) (stereo_rho_impl rho_coefficient)) (fun latg =>
      let lat := centric (if ps_north p then latg else neg latg) in
      let lon := l_atan2 L (if ccw then Y else neg Y) X in
      Ok (Some (lat, lon))))).

(** Body of the drawing loops, lib/marc/PolarStereographic.cpp:273-288 and
    307-322. *)
Definition polar_dot (samples lines : Z) (pix_conv_val rho mm : A) (grid : list Z) : outcome (list Z) :=
  let z := rho * l_cos L mm in
  let x := rho * l_sin L mm in
  let k := l_round L (z / pix_conv_val + Zc lines / Zc 2) in
  let i := l_round L (x / pix_conv_val + Zc samples / Zc 2) in
  if (Zc 0 <= i) && (i < Zc samples) && (Zc 0 <= k) && (k < Zc lines) then
    bind (a_size A k) (fun k => bind (a_size A i) (fun i =>
    put grid (wrap (wrap (k * samples) + i))%Z))
  else Ok grid.

(** [for (m = 0; m < imax; ++m)]; [n] iterations are left. *)
Fixpoint dots (n : nat) (dot : Z -> list Z -> outcome (list Z)) (m : Z) (grid : list Z) : outcome (list Z) :=
  match n with
  | O => Ok grid
  | S n => bind (dot m grid) (fun g => dots n dot (m + 1)%Z g)
  end.

(** [plot_grid], lib/marc/PolarStereographic.cpp:240-325. *)
Definition polar_imax : nat := Z.to_nat 2000.
Definition polar_plot_grid (fuel : nat) (samples lines : Z) (lat_interval lon_interval : A)
    (grid : list Z) : option (outcome (list Z)) :=
  let rho_max := stereo_rho (graphic (ps_max_lat p)) in
  let min_dim := Zc (Z.min (wrap (samples - 1)%Z) (wrap (lines - 1)%Z)) in
  let pix_conv_val := Zc 2 * rho_max / min_dim in
  then_loop
    (for_loop fuel (fun n => n < Zc 90) (fun n => n + lat_interval)
       (fun n => let rho := stereo_rho (graphic (n * l_degree L)) in
          dots polar_imax (fun m =>
            let mm := Zc m / Zc 2000 * l_degree L * Zc 360 in
            polar_dot samples lines pix_conv_val rho mm) 0)
       (Zc (-90) + lat_interval) grid)
    (for_loop fuel (fun m => Zc 0 < m) (fun m => m - lon_interval)
       (fun m => let mm := m * l_degree L in
          dots polar_imax (fun n =>
            let nn := Zc n / Zc 2000 * l_degree L * Zc 360 in
            polar_dot samples lines pix_conv_val (stereo_rho nn) mm) 0)
       (Zc 360)).
End PolarStereographic.
End Projections.
Arguments simple_cyl : clear implicits.
Arguments polar : clear implicits.

(** ** The functions over the reals (mode R) and the doubles *)
Open Scope R_scope.

Definition num1 (f : R -> num) (x : num) : num := match x with Num r => f r | NaN => NaN end.

(** std::round: to the nearest integer, half-way cases away from zero. *)
Definition num_round (x : num) : num := num1 (fun r => Num (IZR (ZnearestA r))) x.

(** [c] is the value of C::pi, from which the other constants are derived; it
    is slightly less than the number pi in the code.  [low] stands for
    std::log(0), that is minus infinity; the theorems that depend on it assume
    it to be below all other values concerned.  The tangent at the exact pole
    is NaN; [pow] is only used with positive base, except for the square. *)
Definition libm_num (c low : R) : libm ar_num :=
  @Libm ar_num
    (num1 (fun r => Num (sin r))) (num1 (fun r => Num (cos r)))
    (num1 (fun r => if Req_bool (cos r) 0 then NaN else Num (tan r)))
    (num1 (fun r => if Rlt_bool 0 r then Num (ln r) else if Req_bool r 0 then Num low else NaN))
    (num2 (fun x y => if Req_bool y 2 then Num (x * x)
                      else if Rlt_bool 0 x then Num (Rpower x y) else NaN))
    (num2 (fun x y => Num (hypot x y))) (num2 (fun y x => Num (atan2 y x)))
    num_round
    (Num c) (Num (2 * c)) (Num (c / 2)) (Num (c / 4)) (Num (c / 180))
    eps_num tiny_num.

(** The same where the tangent at its pole is a number, as it is at the double
    nearest to pi / 2. *)
Definition libm_pole (c low high : R) : libm ar_num :=
  let L := libm_num c low in
  @Libm ar_num (l_sin L) (l_cos L)
    (num1 (fun r => if Req_bool (cos r) 0 then Num high else Num (tan r)))
    (l_log L) (l_pow L) (l_hypot L) (l_atan2 L) (l_round L)
    (l_pi L) (l_2pi L) (l_pi2 L) (l_pi4 L) (l_degree L) (l_eps L) (l_tiny L).

(** The latitude conversions of a spheroid on numbers, and root_find. *)
Definition num_graphic (eq pol : R) : ar_num -> ar_num := num1 (fun r => Num (graphic_latitude eq pol r)).
Definition num_centric (eq pol : R) : ar_num -> ar_num := num1 (fun r => Num (centric_latitude eq pol r)).
Definition num_find (y xl xh : ar_num) (f : ar_num -> ar_num) : outcome ar_num :=
  root_find (fun r => f (Num r)) y xl xh.

(** A library for doubles whose std::round is IEEE; the other functions are
    arbitrary. *)
#[local] Existing Instance prec53.
#[local] Existing Instance emax53.
Definition rounds_to_integer (L : libm ar_double) : Prop :=
  forall x : double, l_round L x = Bnearbyint mode_NA x.

(** [Mercator::distortion], lib/marc/Mercator.cpp:243-261. *)
Definition mercator_distortion (eq pol latg : R) : R :=
  eq / N eq pol (centric_latitude eq pol latg) / cos latg.
