(** The progress display: C63. *)
From Coq Require Import List ZArith Reals.
From Flocq Require Import Core.
From Verif Require Import Base Extrema_Model MakeMap_Model MakeMap_Spec Console_Model Console_Spec Console_Proofs.
Import ListNotations.
Open Scope R_scope.

(** C63: whatever the notifications for a map are, in whatever order, as long as
    the map size is reported at some point, the display is the complete one. *)
Theorem C63_display : forall n counts,
  history n counts -> In n counts ->
  console_run console_new (map (Notify n) counts ++ [Reset]) = Ok (console_new, bar).
Proof. exact display_complete. Qed.
Print Assumptions C63_display.

Example C63_display_case :
  console_run console_new (map (Notify 7) [1; 2; 2; 5; 7]%Z ++ [Reset]) = Ok (0%Z, bar) /\
  length bar = 50%nat /\ nth_error bar 9 = Some (Number 20) /\ nth_error bar 49 = Some Hundred.
Proof. split; [|auto]. vm_compute. reflexivity. Qed.

(** At any time the display is a beginning of the complete one, up to the
    greatest percentage reported so far. *)
Theorem C63_prefix : forall n counts,
  history n counts ->
  exists new out, console_run console_new (map (Notify n) counts) = Ok (new, out) /\
    (0 <= new <= 100)%Z /\ out = firstn (Z.to_nat (new / 2)) bar /\
    (forall c p, In c counts -> percent_complete n c = Ok p -> (p <= new)%Z) /\
    (new = 0%Z \/ exists c, In c counts /\ percent_complete n c = Ok new).
Proof. exact display_prefix. Qed.
Print Assumptions C63_prefix.

Example C63_prefix_case :
  console_run console_new (map (Notify 7) [1; 2]%Z) = Ok (28%Z, firstn 14 bar).
Proof. vm_compute. reflexivity. Qed.

(** The percentage reported for [c] points of [n] is the integer part of
    [100 c / n], up to the rounding of the double computation. *)
Theorem C63_percentage : forall c n p,
  (0 < n < 2 ^ 64)%Z -> (0 <= c <= n)%Z -> percent_complete n c = Ok p ->
  IZR p - bpow radix2 (-40) <= 100 * IZR c / IZR n < IZR p + 1 + bpow radix2 (-40).
Proof. exact percent_accurate. Qed.
Print Assumptions C63_percentage.

(** ... and it is not the exact integer part: 29 points of 100. *)
Example C63_percentage_case :
  percent_complete 100 29 = Ok 28%Z /\ percent_complete 100 30 = Ok 30%Z.
Proof. split; vm_compute; reflexivity. Qed.

(** A map run with several planes ([C15_observers]): one complete display for
    each plane. *)
Theorem C63_planes : forall n k planes,
  (0 < n < 2 ^ 64)%Z -> (Z.of_nat k <= n)%Z ->
  console_run console_new (concat (repeat (progress n k ++ [Notify n n; Reset]) planes)) =
  Ok (console_new, concat (repeat bar planes)).
Proof. exact display_planes. Qed.
Print Assumptions C63_planes.

Example C63_planes_case :
  console_run console_new (concat (repeat (progress 3 2 ++ [Notify 3 3; Reset]) 2)) = Ok (0%Z, bar ++ bar).
Proof. exact (C63_planes 3 2 2 (conj eq_refl eq_refl) ltac:(discriminate)). Qed.
