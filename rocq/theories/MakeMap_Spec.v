(** Specification of map making: which plot calls store a datum, what a cell
    holds, what observers see. *)
From Coq Require Import List ZArith Reals Bool.
From Flocq Require Import Core BinarySingleNaN.
From Verif Require Import Base Flt Extrema_Model Extrema_Spec MakeMap_Model.
Import ListNotations.
Open Scope R_scope.

(** Datum [d] is a number between the limits. *)
Definition within (lo hi : R) (d : double) : Prop :=
  exists x, dval d = Some x /\ lo <= x <= hi.

(** The stores (cell, datum) that a sequence of plot calls performs, in order. *)
Inductive stores (read : reader) (lo hi : R) : list (point * Z) -> list (Z * double) -> Prop :=
| stores_nil : stores read lo hi [] []
| stores_hit pt c d calls l :
    read pt zero_datum = Ok (true, d) -> within lo hi d ->
    stores read lo hi calls l -> stores read lo hi ((pt, c) :: calls) ((c, d) :: l)
| stores_miss pt c ok d calls l :
    read pt zero_datum = Ok (ok, d) -> ok = false \/ ~ within lo hi d ->
    stores read lo hi calls l -> stores read lo hi ((pt, c) :: calls) l.

(** The last datum stored in cell [c]. *)
Definition last_store (l : list (Z * double)) (c : Z) (d : double) : Prop :=
  exists l1 l2, l = l1 ++ (c, d) :: l2 /\ ~ In c (map fst l2).

(** Value [v] of map type [t] is datum [d] converted to the map type. *)
Definition holds (t : mapty) (v : ct t) (d : double) : Prop :=
  exists x, dval d = Some x /\ tval t v = Some (converted t x).

(** Contents of a map: last stored datum, blank elsewhere. *)
Definition map_contents (t : mapty) (n : Z) (blank : ct t) (l : list (Z * double))
    (m : list (ct t)) : Prop :=
  Z.of_nat (length m) = n /\
  forall c, (0 <= c < n)%Z ->
    (exists d v, last_store l c d /\ nth_error m (Z.to_nat c) = Some v /\ holds t v d) \/
    (~ In c (map fst l) /\ nth_error m (Z.to_nat c) = Some blank).

(** Least and greatest finite value of each map type. *)
Definition lowest_val (t : mapty) : R :=
  match t with F64 => IZR (- ((2 ^ 53 - 1) * 2 ^ 971)) | _ => type_low t end.
Definition highest_val (t : mapty) : R :=
  match t with F64 => IZR ((2 ^ 53 - 1) * 2 ^ 971) | _ => type_high t end.

(** [x] is the value of limit [o], which defaults to [dflt]; the limit is a
    number in the range of the type that a [double] can represent. *)
Definition limit_value (t : mapty) (o : option (ct t)) (dflt x : R) : Prop :=
  match o with
  | None => x = dflt
  | Some a => tval t a = Some x /\ type_low t <= x <= type_high t /\
              exists d, dval d = Some x
  end.

(** Calls a projection may issue: cells inside the map, at most as many calls
    as there are cells, and an image that answers. *)
Definition proper_calls (read : reader) (n : Z) (calls : list (point * Z)) : Prop :=
  (forall pt c, In (pt, c) calls ->
     (0 <= c < n)%Z /\ exists r, read pt zero_datum = Ok r) /\
  (Z.of_nat (length calls) <= n)%Z.

(** Number of cells. *)
Definition cells {T} (i : plot_info T) : Z := (pi_samples i * pi_lines i)%Z.
Definition proper_size {T} (i : plot_info T) : Prop :=
  (0 < cells i < 2 ^ 64)%Z /\ (0 < pi_samples i)%Z.

(** Counts reported while [k] points are plotted. *)
Definition progress (n : Z) (k : nat) : list event :=
  map (fun i => Notify n (Z.of_nat i)) (seq 1 k).

(** Numerically least/greatest of the data stored, in map type. *)
Definition extremes_of (t : mapty) (l : list (Z * double)) (e : extrema (ct t)) : Prop :=
  (l = [] /\ e_min e = None /\ e_max e = None) \/
  exists m M dm dM,
    e_min e = Some m /\ e_max e = Some M /\
    In dm (map snd l) /\ In dM (map snd l) /\ holds t m dm /\ holds t M dM /\
    forall d v, In d (map snd l) -> holds t v d -> val_le t m v /\ val_le t v M.

(** The limits of a plane as a pair of reals. *)
Definition limits t (e : extrema (ct t)) (lo hi : R) : Prop :=
  limit_value t (e_min e) (lowest_val t) lo /\
  limit_value t (e_max e) (highest_val t) hi /\
  (t = I64 -> e_max e <> None).

(** Blank value of a map: what the user gave if it fits an integer map, 0
    otherwise; NaN for floating point maps. *)
Definition blank_of t (o : option Z) : option (ct t) :=
  match t as t' return option (ct t') with
  | U8 => match o with Some z => if (0 <=? z)%Z && (z <=? 255)%Z then Some (z : ct U8) else None | None => Some (0%Z : ct U8) end
  | I16 => match o with Some z => if (- 2 ^ 15 <=? z)%Z && (z <=? 2 ^ 15 - 1)%Z then Some (z : ct I16) else None | None => Some (0%Z : ct I16) end
  | I32 => match o with Some z => if (- 2 ^ 31 <=? z)%Z && (z <=? 2 ^ 31 - 1)%Z then Some (z : ct I32) else None | None => Some (0%Z : ct I32) end
  | I64 => match o with Some z => if (- 2 ^ 63 <=? z)%Z && (z <=? 2 ^ 63 - 1)%Z then Some (z : ct I64) else None | None => Some (0%Z : ct I64) end
  | F32 => Some (B754_nan : ct F32)
  | F64 => Some (B754_nan : ct F64)
  end.

(** Limits of a plane given as [double]s (DATA_MIN / DATA_MAX) that the map
    type can represent exactly. *)
Definition plane_limit (t : mapty) (o : option (ct F64)) (dflt x : R) : Prop :=
  match o with
  | None => x = dflt
  | Some m => dval m = Some x /\ type_low t <= x <= type_high t /\
              exists a, tval t a = Some x
  end.
Definition plane_limits (t : mapty) (e : extrema (ct F64)) (lo hi : R) : Prop :=
  plane_limit t (e_min e) (lowest_val t) lo /\
  plane_limit t (e_max e) (highest_val t) hi /\
  (t = I64 -> e_max e <> None).

(** A run over several planes: [acc] are all data stored before, each plane's
    map has the right contents, and the warning is issued exactly when
    nothing has been stored SO FAR (in this or an earlier plane). *)
Inductive planes_spec (t : mapty) (calls : list (point * Z)) (n : Z) (blank : ct t) :
  list (Z * double) -> list plane -> list (list (ct t) * bool) -> list (Z * double) -> Prop :=
| ps_nil acc : planes_spec t calls n blank acc [] [] acc
| ps_null acc p rest res acc' :
    pl_image p = None -> planes_spec t calls n blank acc rest res acc' ->
    planes_spec t calls n blank acc (p :: rest) res acc'
| ps_plane acc p rest res acc' read lo hi l m (warned : bool) :
    pl_image p = Some read -> plane_limits t (pl_minmax p) lo hi ->
    stores read lo hi calls l -> map_contents t n blank l m ->
    (warned = true <-> acc ++ l = []) ->
    planes_spec t calls n blank (acc ++ l) rest res acc' ->
    planes_spec t calls n blank acc (p :: rest) ((m, warned) :: res) acc'.

(** First component of a successful result. *)
Definition map_of {A B} (o : outcome (A * B)) : option A :=
  match o with Ok (a, _) => Some a | _ => None end.

(** Small fixtures for concrete cases: one point plotted in cell 0, an image
    that always yields [d], an image without data. *)
Definition one_cell : list (point * Z) := [((zero_datum, zero_datum), 0%Z)].
Definition constant_image (d : double) : reader := fun _ _ => Ok (true, d).
Definition empty_image : reader := fun _ d => Ok (false, d).
Definition sample_calls : list (point * Z) :=
  [((zero_datum, zero_datum), 2%Z); ((double_of_Z 1, zero_datum), 0%Z); ((double_of_Z 2, zero_datum), 1%Z)].
Definition sample_image : reader := fun pt _ =>
  if flt zero_datum (fst pt) then Ok (true, dlit 21 (-1)) else Ok (true, double_of_Z 200).
