(** Specification of the progress display. *)
From Coq Require Import List ZArith Reals.
From Verif Require Import Base MakeMap_Model Console_Model.
Import ListNotations.

(** The complete display of one map: a dot for every 2 percent, numbers at 20,
    40, 60 and 80, and "100%" with a newline at the end. *)
Definition nine : list piece := repeat Dot 9.
Definition bar : list piece :=
  nine ++ [Number 20] ++ nine ++ [Number 40] ++ nine ++ [Number 60] ++
  nine ++ [Number 80] ++ nine ++ [Hundred].

(** A history of notifications for one map of [n] points. *)
Definition history (n : Z) (counts : list Z) : Prop :=
  (0 < n < 2 ^ 64)%Z /\ forall c, In c counts -> (0 <= c <= n)%Z.
