(** Specification vocabulary for data ranges: the mathematical value of a
    stored datum and plain statements about least and greatest values. *)
From Coq Require Import List ZArith Reals.
From Flocq Require Import Core BinarySingleNaN.
From Verif Require Import Base Flt Extrema_Model.
Import ListNotations.
Open Scope R_scope.

(** Value of a datum of map type [t]; [None] for NaN. *)
Definition tval (t : mapty) : ct t -> option R :=
  match t as t' return ct t' -> option R with
  | U8 => fun z => Some (IZR z)
  | I16 => fun z => Some (IZR z)
  | I32 => fun z => Some (IZR z)
  | I64 => fun z => Some (IZR z)
  | F32 => fun x : float => if is_nan x then None else Some (fval x)
  | F64 => fun x : double => if is_nan x then None else Some (fval x)
  end.

(** Value of a [double]; [None] for NaN. *)
Definition dval (x : double) : option R := if is_nan x then None else Some (fval x).

Definition not_nan (t : mapty) (d : ct t) : Prop := tval t d <> None.

(** [a <= b] for data that are numbers. *)
Definition val_le (t : mapty) (a b : ct t) : Prop :=
  exists x y, tval t a = Some x /\ tval t b = Some y /\ x <= y.

(** [m] is a least / greatest element of [ds]. *)
Definition least (t : mapty) (ds : list (ct t)) (m : ct t) : Prop :=
  In m ds /\ forall d, In d ds -> val_le t m d.
Definition greatest (t : mapty) (ds : list (ct t)) (m : ct t) : Prop :=
  In m ds /\ forall d, In d ds -> val_le t d m.

(** Data held in an extremum as a number. *)
Definition oval (t : mapty) (o : option (ct t)) : option R :=
  match o with Some d => tval t d | None => None end.

(** Types whose values are exactly representable as [double] (all but 64-bit
    integers), and the stored values that can occur in them. *)
Definition exact_in_double (t : mapty) : Prop := t <> I64.
Definition in_type (t : mapty) (d : ct t) : Prop :=
  match t as t' return ct t' -> Prop with
  | U8 => fun z => (0 <= z <= 255)%Z
  | I16 => fun z => (- 2 ^ 15 <= z <= 2 ^ 15 - 1)%Z
  | I32 => fun z => (- 2 ^ 31 <= z <= 2 ^ 31 - 1)%Z
  | I64 => fun z => (- 2 ^ 63 <= z <= 2 ^ 63 - 1)%Z
  | F32 => fun _ => True
  | F64 => fun _ => True
  end d.

(** The smaller / greater of two optional bounds, an absent bound being no
    constraint. *)
Definition lesser (t : mapty) (a b r : option (ct t)) : Prop :=
  match a, b with
  | None, _ => r = b
  | _, None => r = a
  | Some x, Some y => (val_le t x y /\ oval t r = tval t x) \/ (val_le t y x /\ oval t r = tval t y)
  end.
Definition greater (t : mapty) (a b r : option (ct t)) : Prop :=
  match a, b with
  | None, _ => r = b
  | _, None => r = a
  | Some x, Some y => (val_le t y x /\ oval t r = tval t x) \/ (val_le t x y /\ oval t r = tval t y)
  end.

(** Range of each map type as real numbers. *)
Definition FLT_MAX : R := IZR ((2 ^ 24 - 1) * 2 ^ 104).
Definition type_low (t : mapty) : R :=
  match t with
  | U8 => 0 | I16 => IZR (- 2 ^ 15) | I32 => IZR (- 2 ^ 31) | I64 => IZR (- 2 ^ 63)
  | F32 => - FLT_MAX | F64 => IZR (- 2 ^ 1024)
  end.
Definition type_high (t : mapty) : R :=
  match t with
  | U8 => 255 | I16 => IZR (2 ^ 15 - 1) | I32 => IZR (2 ^ 31 - 1) | I64 => IZR (2 ^ 63 - 1)
  | F32 => FLT_MAX | F64 => IZR (2 ^ 1024)
  end.
Definition is_int_type (t : mapty) : bool :=
  match t with F32 | F64 => false | _ => true end.

(** What converting the real number [r] to map type [t] yields: truncation
    for integers, the nearest [float], or [r] itself for [double]. *)
Definition converted (t : mapty) (r : R) : R :=
  match t with
  | F64 => r
  | F32 => round radix2 (FLT_exp (-149) 24) ZnearestE r
  | _ => IZR (Ztrunc r)
  end.

(** A user limit clipped to the range of the map type ([double] maps are not
    clipped). *)
Definition clip_low (t : mapty) (x : R) : R :=
  match t with F64 => x | _ => Rmax x (type_low t) end.
Definition clip_high (t : mapty) (x : R) : R :=
  match t with F64 => x | _ => Rmin x (type_high t) end.

(** Data other than NaN. *)
Definition numbers t (ds : list (ct t)) : list (ct t) :=
  filter (fun d => match tval t d with Some _ => true | None => false end) ds.
