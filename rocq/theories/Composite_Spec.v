(** Specification of compositing: what each image contributes at a point. *)
From Coq Require Import List ZArith Reals.
From Verif Require Import Base Num Photo_Model.
Import ListNotations.
Open Scope R_scope.

(** Over the reals [long double] is the same as [double]. *)
Notation same_num := (as_wide ar_num).

(** The image answers [o] at the point: a datum, or no data.  Asked with a
    number in the caller's variable it gives that answer and, without data,
    leaves a number (not necessarily the same) in the variable. *)
Definition answers (im : image ar_num) (o : option R) : Prop :=
  forall d, d <> NaN ->
  match o with
  | Some r => im d = Ok (true, Num r)
  | None => exists d', im d = Ok (false, d') /\ d' <> NaN
  end.

(** As [answers], and without data the variable is left alone. *)
Definition answers_clean (im : image ar_num) (o : option R) : Prop :=
  forall d, d <> NaN ->
  im d = match o with Some r => Ok (true, Num r) | None => Ok (false, d) end.

(** Weighted answer: datum and weight. *)
Definition wanswers (im : wimage ar_num) (o : option (R * R)) : Prop :=
  forall d w, d <> NaN ->
  match o with
  | Some (r, wt) => im d w = Ok (true, Num r, Num wt)
  | None => exists d' w', im d w = Ok (false, d', w') /\ d' <> NaN
  end.
Definition wanswers_clean (im : wimage ar_num) (o : option (R * R)) : Prop :=
  forall d w, d <> NaN ->
  match o with
  | Some (r, wt) => im d w = Ok (true, Num r, Num wt)
  | None => exists w', im d w = Ok (false, d, w')
  end.

(** The data contributed, in image order. *)
Fixpoint contributions {B} (os : list (option B)) : list B :=
  match os with
  | [] => []
  | Some b :: rest => b :: contributions rest
  | None :: rest => contributions rest
  end.

Definition total (l : list R) : R := fold_right Rplus 0 l.
Definition mean (l : list R) : R := total l / INR (length l).

(** Weighted mean of (datum, weight) pairs. *)
Definition wtotal (l : list (R * R)) : R := total (map (fun p => snd p * fst p) l).
Definition weights (l : list (R * R)) : R := total (map snd l).
Definition wmean (l : list (R * R)) : R := wtotal l / weights l.
