(** Property theorems C05-C09: data ranges ([extrema]). *)
From Coq Require Import List ZArith Reals Lra Permutation.
From Flocq Require Import Core BinarySingleNaN.
From Verif Require Import Base Flt Extrema_Model Extrema_Spec Extrema_Proofs.
Import ListNotations.
Open Scope R_scope.

(** C05: after any history of non-NaN data the minimum is a least and the
    maximum a greatest datum; unset exactly for the empty history; the values
    do not depend on the order. *)
Theorem C05_extrema_of_history : forall t (ds : list (ct t)),
  (forall d, In d ds -> not_nan t d) ->
  let e := fold_left ex_update ds ex_empty in
  (ds = [] /\ e_min e = None /\ e_max e = None) \/
  (exists m M, e_min e = Some m /\ e_max e = Some M /\ least t ds m /\ greatest t ds M).
Proof. exact history_extrema. Qed.
Print Assumptions C05_extrema_of_history.

Theorem C05_extrema_order_independent : forall t (ds ds' : list (ct t)),
  (forall d, In d ds -> not_nan t d) -> Permutation ds ds' ->
  let e := fold_left ex_update ds ex_empty in
  let e' := fold_left ex_update ds' ex_empty in
  oval t (e_min e) = oval t (e_min e') /\ oval t (e_max e) = oval t (e_max e').
Proof. exact history_order_independent. Qed.
Print Assumptions C05_extrema_order_independent.

Example C05_case :
  (forall d, In d [5; -3; 7; 0]%Z -> not_nan I16 d) /\
  fold_left (ex_update (T := ct I16)) [5; -3; 7; 0]%Z ex_empty = @Extrema (ct I16) (Some (-3)%Z) (Some 7%Z).
Proof. split; [discriminate|reflexivity]. Qed.

(** C06, all map types but 64-bit integers: the range test is a two-sided
    comparison of real numbers; NaN and an unset maximum admit nothing. *)
Theorem C06_range_test_partial : forall t (e : extrema (ct t)) v,
  exact_in_double t ->
  (forall a, e_min e = Some a -> in_type t a) -> (forall b, e_max e = Some b -> in_type t b) ->
  (in_range e v = true <->
   exists x, dval v = Some x /\
     (forall a, e_min e = Some a -> exists y, tval t a = Some y /\ y <= x) /\
     (exists b y, e_max e = Some b /\ tval t b = Some y /\ x <= y)).
Proof. exact in_range_exact. Qed.
Print Assumptions C06_range_test_partial.

Theorem C06_is_valid : forall t (e : extrema (ct t)),
  is_valid e = true <-> exists a b, e_min e = Some a /\ e_max e = Some b /\ val_le t a b.
Proof. exact is_valid_spec. Qed.
Print Assumptions C06_is_valid.

(** C06 is false for 64-bit integer maps: the bound is rounded to [double]. *)
Theorem C06_range_test_int64_refuted :
  exists (e : extrema (ct I64)) (v : double) (x : R) (b : Z),
    e_max e = Some (b : ct I64) /\ in_type I64 b /\
    dval v = Some x /\ IZR b < x /\ in_range e v = true.
Proof. exact in_range_int64_refuted. Qed.
Print Assumptions C06_range_test_int64_refuted.

Example C06_case :
  let e := @Extrema (ct I16) (Some (-2)%Z) (Some 10%Z) in
  in_range e (dlit 19 (-1)) = true /\ in_range e (dlit 21 (-1)) = false /\
  in_range e (dlit (-2) 0) = true /\ in_range e B754_nan = false /\
  in_range (@Extrema (ct I16) (Some 0%Z) None) (dlit 1 0) = false.
Proof. repeat split. Qed.

(** C07: maxima merge correctly; minima only if the target has one. *)
Theorem C07_merge_maximum : forall t (a b : extrema (ct t)),
  (forall x, e_max a = Some x -> not_nan t x) -> (forall x, e_max b = Some x -> not_nan t x) ->
  greater t (e_max a) (e_max b) (e_max (ex_merge a b)).
Proof. exact merge_max_spec. Qed.
Print Assumptions C07_merge_maximum.

Theorem C07_merge_minimum_partial : forall t (a b : extrema (ct t)) x,
  e_min a = Some x -> not_nan t x -> (forall y, e_min b = Some y -> not_nan t y) ->
  lesser t (e_min a) (e_min b) (e_min (ex_merge a b)).
Proof. exact merge_min_partial. Qed.
Print Assumptions C07_merge_minimum_partial.

(** Merging into unset extrema never sets the minimum. *)
Theorem C07_merge_minimum_refuted : forall t (b : extrema (ct t)),
  e_min (ex_merge ex_empty b) = None.
Proof. exact merge_empty_loses_minimum. Qed.
Print Assumptions C07_merge_minimum_refuted.

Example C07_case :
  ex_merge (@Extrema (ct I16) (Some 3%Z) (Some 4%Z)) (@Extrema (ct I16) (Some 1%Z) (Some 9%Z))
    = @Extrema (ct I16) (Some 1%Z) (Some 9%Z) /\
  ~ lesser I16 None (Some 1%Z) (e_min (ex_merge (T := ct I16) ex_empty (@Extrema (ct I16) (Some 1%Z) (Some 9%Z)))).
Proof. split; [reflexivity|discriminate]. Qed.

(** C08 holds when the first datum is a number ... *)
Theorem C08_nan_ignored_partial : forall t d (ds : list (ct t)),
  not_nan t d ->
  fold_left ex_update (d :: ds) ex_empty = fold_left ex_update (numbers t (d :: ds)) ex_empty.
Proof. exact nan_ignored_partial. Qed.
Print Assumptions C08_nan_ignored_partial.

(** ... and is false when it is NaN. *)
Theorem C08_nan_first_refuted :
  let ds := [B754_nan; double_of_Z 1; double_of_Z 2] : list (ct F64) in
  let e := fold_left ex_update ds ex_empty in
  e_min e = Some (B754_nan : ct F64) /\ e_max e = Some (B754_nan : ct F64) /\
  e_min (fold_left ex_update (numbers F64 ds) ex_empty) = Some (double_of_Z 1 : ct F64).
Proof. exact nan_first_refuted. Qed.
Print Assumptions C08_nan_first_refuted.

Example C08_case :
  not_nan F64 (double_of_Z 1) /\
  fold_left (ex_update (T := ct F64)) [double_of_Z 1; B754_nan; double_of_Z 2] ex_empty
    = @Extrema (ct F64) (Some (double_of_Z 1)) (Some (double_of_Z 2)).
Proof. split; [discriminate|reflexivity]. Qed.

(** C09, bounds that overlap the range of the type (and, for 64-bit integers,
    a maximum of at most 2^63-1): the extrema are the clipped and converted
    bounds, or the bounds are crossed and the call throws. *)
Theorem C09_construction_partial : forall t lo hi x y,
  dval lo = Some x -> dval hi = Some y ->
  x <= type_high t -> type_low t <= y -> (t = I64 -> y <= type_high t) ->
  exists a b, in_type t a /\ in_type t b /\
    tval t a = Some (converted t (clip_low t x)) /\
    tval t b = Some (converted t (clip_high t y)) /\
    (converted t (clip_low t x) <= converted t (clip_high t y) ->
       ex_make lo hi = Ok (Extrema (Some a) (Some b))) /\
    (converted t (clip_high t y) < converted t (clip_low t x) ->
       ex_make (T := ct t) lo hi = Throw invalid_argument).
Proof. exact ex_make_ok. Qed.
Print Assumptions C09_construction_partial.

(** NaN bounds are rejected (the maximum is looked at after the minimum). *)
Theorem C09_nan_rejected : forall t lo hi,
  (is_nan lo = true -> ex_make (T := ct t) lo hi = Throw invalid_argument) /\
  (forall a, validate_minimum (T := ct t) lo = Ok a -> is_nan hi = true ->
     ex_make (T := ct t) lo hi = Throw invalid_argument).
Proof. exact ex_make_nan. Qed.
Print Assumptions C09_nan_rejected.

(** The full statement is false: clipping is one-sided, so a minimum above
    the type's maximum (or a maximum below its minimum, or any maximum of
    2^63 and more for 64-bit maps) is converted with undefined behaviour.
    The conditions are exact. *)
Theorem C09_minimum_conversion_undefined_iff : forall t m x,
  is_int_type t = true -> dval m = Some x ->
  (validate_minimum (T := ct t) m = UB ub_conversion <-> type_high t + 1 <= x).
Proof. exact validate_minimum_ub. Qed.
Print Assumptions C09_minimum_conversion_undefined_iff.

Theorem C09_maximum_conversion_undefined_iff : forall t m x,
  is_int_type t = true -> dval m = Some x ->
  (validate_maximum (T := ct t) m = UB ub_conversion <->
   x <= type_low t - 1 \/ (t = I64 /\ type_high t + 1 <= x)).
Proof. exact validate_maximum_ub. Qed.
Print Assumptions C09_maximum_conversion_undefined_iff.

Theorem C09_construction_refuted :
  ex_make (T := ct I16) (double_of_Z 40000) (double_of_Z 50000) = UB ub_conversion /\
  ex_make (T := ct U8) (double_of_Z (-10)) (double_of_Z (-5)) = UB ub_conversion /\
  ex_make (T := ct I64) (double_of_Z 0) (double_of_Z (2 ^ 63)) = UB ub_conversion.
Proof. exact ex_make_ub_refuted. Qed.
Print Assumptions C09_construction_refuted.

(** Setting one bound clips and converts it, rejects NaN, and keeps the other. *)
Theorem C09_setters_partial : forall t (e : extrema (ct t)) m,
  (is_nan m = true -> ex_set_min e m = Throw invalid_argument /\ ex_set_max e m = Throw invalid_argument) /\
  (forall x, dval m = Some x -> x <= type_high t ->
     exists a, in_type t a /\ tval t a = Some (converted t (clip_low t x)) /\
       ex_set_min e m = Ok (Extrema (Some a) (e_max e))) /\
  (forall x, dval m = Some x -> type_low t <= x -> (t = I64 -> x <= type_high t) ->
     exists a, in_type t a /\ tval t a = Some (converted t (clip_high t x)) /\
       ex_set_max e m = Ok (Extrema (e_min e) (Some a))).
Proof. exact setters_spec. Qed.
Print Assumptions C09_setters_partial.

Example C09_case :
  ex_make (T := ct I16) (double_of_Z (-65000)) (dlit 21 (-1)) =
    Ok (@Extrema (ct I16) (Some (-32768)%Z) (Some 10%Z)) /\
  ex_make (T := ct I16) (double_of_Z 7) (double_of_Z 5) = Throw invalid_argument.
Proof. split; reflexivity. Qed.
