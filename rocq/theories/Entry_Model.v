(** Values of the keywords of an input file: angles, latitudes, longitudes,
    ranges, integers, the blank value and the radii of the body
    (src/parse.yy, src/parse_scan.cpp).  The value of an expression is the
    argument of each function ([Expr_Model] evaluates expressions). *)
From Coq Require Import List ZArith Reals Bool.
From Flocq Require Import Core BinarySingleNaN.
From Verif Require Import Base Flt Num Maths_Model Spheroid_Model Proj_Model Params_Model.
Import ListNotations.
Open Scope Z_scope.

(** How a semantic action ends: it yields a value, it rejects the input
    (YYERROR, after which yyparse() returns nonzero), or an exception leaves
    yyparse(). *)
Inductive parsed (A : Type) := Parsed (a : A) | Rejected | Thrown (e : exn).
Arguments Parsed {A}. Arguments Rejected {A}. Arguments Thrown {A}.

Definition pbind {A B} (x : parsed A) (f : A -> parsed B) : parsed B :=
  match x with Parsed a => f a | Rejected => Rejected | Thrown e => Thrown e end.

(** ** Angles *)
Section Angles.
Context {A : arith}.
(** Unary minus and std::fmod; C::degree and
    OblateSpheroid::centric_latitude of the body. *)
Context (opp : A -> A) (fmod : A -> A -> A) (degree : A) (centric : A -> A).
Local Notation Zc := (a_of_Z A).
Local Infix "+" := (a_add A).
Local Infix "-" := (a_sub A).
Local Infix "*" := (a_mul A).
Local Infix "/" := (a_div A).
Local Infix "<=?" := (a_le A).

(** [circle_angle], src/parse.yy:105-117. *)
Definition circle_angle (angle : A) : A :=
  let angle := fmod angle (Zc 360) in
  if Zc 0 <=? angle then angle else angle + Zc 360.

(** [std::abs(x) > 360]: false for a NaN. *)
Definition beyond_circle (x : A) : bool := a_lt A (Zc 360) (a_abs A x).

Inductive lon_suffix := no_direction | East | West.

(** longitude, src/parse.yy:2096-2127; [prograde] of the body. *)
Definition longitude (prograde : bool) (s : lon_suffix) (x : A) : parsed A :=
  if beyond_circle x then Rejected
  else
    let v := circle_angle x in
    Parsed match s with
           | no_direction => v
           | East => if prograde then Zc 360 - v else v
           | West => if negb prograde then Zc 360 - v else v
           end.

Inductive lat_suffix := no_hemisphere | North | South.
Inductive lat_kind := Centric | Graphic.

(** latitude_sub, src/parse.yy:2069-2094. *)
Definition latitude_sub (s : lat_suffix) (x : A) : parsed A :=
  match s with
  | no_hemisphere => if a_abs A x <=? Zc 90 then Parsed x else Rejected
  | North => if (Zc 0 <=? x) && (x <=? Zc 90) then Parsed x else Rejected
  | South => if (Zc 0 <=? x) && (x <=? Zc 90) then Parsed (opp x) else Rejected
  end.

(** latitude, src/parse.yy:2060-2067; no suffix and C are the same. *)
Definition latitude (s : lat_suffix) (k : lat_kind) (x : A) : parsed A :=
  pbind (latitude_sub s x) (fun v =>
  Parsed match k with
         | Centric => v
         | Graphic => centric (v * degree) / degree
         end).

Inductive turn := no_turn | CW | CCW.

(** position_angle, src/parse.yy:1723-1754. *)
Definition position_angle (t : turn) (x : A) : parsed A :=
  if beyond_circle x then Rejected
  else
    let v := circle_angle x in
    Parsed match t with CW => Zc 360 - v | no_turn | CCW => v end.

Inductive length_unit := no_unit | KM | AU.

(** range, src/parse.yy:1433-1440; [au] is C::astronomical_unit (in meters). *)
Definition range (au : A) (u : length_unit) (x : A) : A :=
  match u with no_unit | KM => x | AU => x * au / Zc 1000 end.

(** Radii, src/parse_scan.h:144-169. *)
Record radii := Radii { eq_rad : A; pol_rad : A; flattening : A }.

(** The two characteristics given in an input file, in either order. *)
Inductive radii_entry :=
| given_radii (eq pol : A)
| given_eq (eq f : A)
| given_pol (pol f : A).

(** radii, src/parse.yy:901-937; -1 stands for "not given". *)
Definition radii_of (e : radii_entry) : radii :=
  match e with
  | given_radii eq pol => Radii eq pol (Zc (-1))
  | given_eq eq f => Radii eq (Zc (-1)) f
  | given_pol pol f => Radii (Zc (-1)) pol f
  end.

Definition count (b : bool) : Z := if b then 1 else 0.

(** [Radii::validate], src/parse_scan.cpp:42-97. *)
Definition radii_validate (r : radii) : outcome radii :=
  let n := (count (a_lt A (Zc 0) (eq_rad r)) + count (a_lt A (Zc 0) (pol_rad r))
            + count (a_le A (Zc 0) (flattening r) && a_lt A (flattening r) (Zc 1)))%Z in
  if (n <? 2)%Z then Throw invalid_argument
  else
    let r :=
      if a_lt A (eq_rad r) (Zc 0)
      then Radii (pol_rad r / (Zc 1 - flattening r)) (pol_rad r) (flattening r)
      else if a_lt A (pol_rad r) (Zc 0)
      then Radii (eq_rad r) (eq_rad r * (Zc 1 - flattening r)) (flattening r)
      else r in
    if a_lt A (eq_rad r) (pol_rad r) then Throw invalid_argument else Ok r.

(** body, src/parse.yy:877-890: the radii handed to OblateSpheroid. *)
Definition body_radii (e : radii_entry) : outcome (A * A) :=
  bind (radii_validate (radii_of e)) (fun r => Ok (eq_rad r, pol_rad r)).

End Angles.
Arguments Radii {A}. Arguments eq_rad {A}. Arguments pol_rad {A}. Arguments flattening {A}.
Arguments given_radii {A}. Arguments given_eq {A}. Arguments given_pol {A}. Arguments radii A : clear implicits.
Arguments radii_entry A : clear implicits.

(** body, src/parse.yy:877-890, with the constructor of OblateSpheroid. *)
Definition body_spheroid {A : arith} (prograde : bool) (e : radii_entry A) : outcome (Spheroid_Model.spheroid A) :=
  bind (body_radii e) (fun r => Spheroid_Model.spheroid_new prograde (fst r) (snd r)).

(** ** Integers *)

(** The text of a NUM token, src/lexer.ll:118: an optional sign, digits,
    optionally a point with digits and an exponent (each digit as its value). *)
Record number := NumText {
  n_sign : option bool;              (* Some true for '-', Some false for '+' *)
  n_digits : list Z;
  n_fraction : option (list Z);
  n_exponent : option (option bool * list Z) }.

Definition decimal (l : list Z) : Z := fold_left (fun v d => 10 * v + d) l 0.

(** integer, src/parse.yy:868-872: [from_string] (lines 278-313) with
    [std::strtoll] (lines 233-239), which reads the sign and the digits and
    stops at the first other character; [end] is not compared with the end of
    the text.  Values out of range are ERANGE. *)
Definition integer (n : number) : parsed Z :=
  match n_digits n with
  | [] => Rejected                                   (* end == str *)
  | l =>
      let v := match n_sign n with Some true => - decimal l | _ => decimal l end in
      if (- 2 ^ 63 <=? v) && (v <=? 2 ^ 63 - 1) then Parsed v else Rejected
  end.

(** planes, samples, lines, src/parse.yy:828-866: only positive values; the
    conversion to long keeps the value (LP64). *)
Definition positive_size (n : number) : parsed Z :=
  pbind (integer n) (fun z => if 0 <? z then Parsed z else Rejected).

(** nibble and its relatives, src/parse.yy:1189-1293: not negative. *)
Definition nibble_size (n : number) : parsed Z :=
  pbind (integer n) (fun z => if 0 <=? z then Parsed z else Rejected).

(** [blank_verifier], src/parse.yy:128-195. *)
Definition blank_fits (bitpix blank : Z) : bool :=
  if bitpix =? 8 then (0 <=? blank) && (blank <=? 255)
  else if bitpix =? 16 then (- 2 ^ 15 <=? blank) && (blank <=? 2 ^ 15 - 1)
  else if bitpix =? 32 then (- 2 ^ 31 <=? blank) && (blank <=? 2 ^ 31 - 1)
  else bitpix =? 64.

(** data_blank, src/parse.yy:707-742. *)
Definition data_blank (n : number) (p : params) : parsed params :=
  pbind (integer n) (fun blank =>
  match get_bitpix p with
  | Ok b =>
      if b <? 0 then Thrown invalid_argument
      else if blank_fits b blank then Parsed (set_blank (Some blank) p) else Rejected
  | Throw e => Thrown e
  | UB _ => Rejected
  end).
