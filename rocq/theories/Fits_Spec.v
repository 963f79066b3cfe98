(** Specification vocabulary for C57. *)
From Coq Require Import List ZArith Bool.
From Verif Require Import Base Fits_Model.
Import ListNotations.
Open Scope Z_scope.

Section Spec.
Context {E : Type}.

(** Attempts [l] after [n] planes of [size] elements have been accepted: which
    succeed, out of [planes]. *)
Fixpoint verdicts (size planes n : nat) (l : list (attempt E)) : list bool :=
  match l with
  | [] => []
  | a :: l =>
      let ok := (n <? planes)%nat && (length (a_data a) =? size)%nat && (a_status a =? 0) in
      ok :: verdicts size planes (if ok then S n else n) l
  end.
(** The data of the attempts that succeeded. *)
Fixpoint accepted (l : list (attempt E)) (v : list bool) : list (list E) :=
  match l, v with
  | a :: l, ok :: v => if ok then a_data a :: accepted l v else accepted l v
  | _, _ => []
  end.

(** Elements [start + 1] onwards hold the data. *)
Definition occupies (d : disk E) (start : Z) (data : list E) : Prop :=
  forall i, (i < length data)%nat -> d (start + 1 + Z.of_nat i) = nth_error data i.
End Spec.
