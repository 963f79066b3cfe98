(** Specification of keyword values. *)
From Coq Require Import List ZArith Reals Bool.
From Flocq Require Import Core BinarySingleNaN.
From Verif Require Import Base Flt Num Entry_Model.
Import ListNotations.
Open Scope R_scope.

(** Longitudes of a body are counted to the west if it rotates prograde, to the
    east otherwise.  The direction, in degrees to the east, of a longitude of
    the body ... *)
Definition eastward (prograde : bool) (lon : R) : R := if prograde then - lon else lon.
(** ... and of an entry with its suffix. *)
Definition entered (prograde : bool) (s : lon_suffix) (x : R) : R :=
  match s with no_direction => eastward prograde x | East => x | West => - x end.

(** The same direction up to [err] degrees. *)
Definition close_direction (err a b : R) : Prop := exists n : Z, Rabs (a - (b + 360 * IZR n)) <= err.

(** Counterclockwise angle of a position angle entry. *)
Definition turned (t : turn) (x : R) : R := match t with CW => - x | no_turn | CCW => x end.

(** Latitudes that may be entered with a suffix, and their signed value. *)
Definition entered_latitude (s : lat_suffix) (x v : R) : Prop :=
  match s with
  | no_hemisphere => -90 <= x <= 90 /\ v = x
  | North => 0 <= x <= 90 /\ v = x
  | South => 0 <= x <= 90 /\ v = - x
  end.

(** The spheroid with radii [eq] and [pol] is the one described by the two given
    characteristics; the flattening is the relative difference of the radii. *)
Definition described (e : radii_entry ar_num) (eq pol : R) : Prop :=
  match e with
  | given_radii a b => a = Num eq /\ b = Num pol
  | given_eq a f => a = Num eq /\ f = Num ((eq - pol) / eq)
  | given_pol b f => b = Num pol /\ f = Num ((eq - pol) / eq)
  end.

(** The integers of [bits] bits, unsigned for 8 bits. *)
Definition representable (bitpix b : Z) : Prop :=
  (bitpix = 8 /\ 0 <= b < 2 ^ 8 \/ bitpix = 16 /\ - 2 ^ 15 <= b < 2 ^ 15 \/
   bitpix = 32 /\ - 2 ^ 31 <= b < 2 ^ 31 \/ bitpix = 64 /\ - 2 ^ 63 <= b < 2 ^ 63)%Z.

(** Positional value of decimal digits. *)
Fixpoint positional (l : list Z) : Z :=
  match l with [] => 0 | d :: r => d * 10 ^ Z.of_nat (length r) + positional r end%Z.
Definition digits (l : list Z) : Prop := Forall (fun d => 0 <= d <= 9)%Z l.

(** Decimal number denoted by the text of a NUM token. *)
Definition signed (s : option bool) (v : R) : R := match s with Some true => - v | _ => v end.
Definition denoted (n : number) : R :=
  let f := match n_fraction n with Some l => IZR (positional l) / 10 ^ length l | None => 0 end in
  let e := match n_exponent n with
           | Some (Some true, l) => / 10 ^ Z.to_nat (positional l)
           | Some (_, l) => 10 ^ Z.to_nat (positional l)
           | None => 1
           end in
  signed (n_sign n) ((IZR (positional (n_digits n)) + f) * e).

(** Two characteristics, as doubles, from which a spheroid can be made, and its
    radii; the computed one is rounded twice. *)
Definition rounded : R -> R := round radix2 (SpecFloat.fexp 53 1024) ZnearestE.
Definition positive (x : double) : Prop := is_nan x = false /\ 0 < fval x.
Definition proper_flattening (f : double) : Prop := is_finite f = true /\ 0 <= B2R f < 1.
Definition radii_made (e : radii_entry ar_double) (eq pol : double) : Prop :=
  positive eq /\ positive pol /\ fval pol <= fval eq /\
  match e with
  | given_radii a b => a = eq /\ b = pol
  | given_eq a f => a = eq /\ proper_flattening f /\
      (is_finite eq = true -> is_finite pol = true /\ B2R pol = rounded (B2R eq * rounded (1 - B2R f)))
  | given_pol b f => b = pol /\ proper_flattening f /\
      (is_finite eq = true -> is_finite pol = true /\ B2R eq = rounded (B2R pol / rounded (1 - B2R f)))
  end.
Definition radii_usable (e : radii_entry ar_double) : Prop :=
  match e with
  | given_radii a b => positive a /\ positive b /\ fval b <= fval a
  | given_eq a f => positive a /\ proper_flattening f /\
      (is_finite a = true -> 0 < rounded (B2R a * rounded (1 - B2R f)))
  | given_pol b f => positive b /\ proper_flattening f
  end.
