(** Property theorems C01-C04: image inversion. *)
From Coq Require Import List ZArith Lia.
From Verif Require Import Base Utility_Model Utility_Spec Utility_Proofs.
Import ListNotations.

(** C01: horizontal inversion mirrors every row. *)
Theorem C01_invert_samples_mirrors : forall (A : Type) (img : list A) samples lines,
  fits samples lines ->
  Z.of_nat (length img) = (samples * lines)%Z ->
  exists img', invert_samples img samples lines = Ok img' /\
    mirrored_lr (Z.to_nat samples) (Z.to_nat lines) img img'.
Proof. exact @invert_samples_ok. Qed.
Print Assumptions C01_invert_samples_mirrors.

Example C01_case :
  fits 3 2 /\ invert_samples [1;2;3;4;5;6]%Z 3 2 = Ok [3;2;1;6;5;4]%Z.
Proof. split; [unfold fits; lia|reflexivity]. Qed.

(** C02: vertical inversion mirrors every column; the middle line of an odd
    number of lines is its own mirror image. *)
Theorem C02_invert_lines_mirrors : forall (A : Type) (img : list A) samples lines,
  fits samples lines ->
  Z.of_nat (length img) = (samples * lines)%Z ->
  exists img', invert_lines img samples lines = Ok img' /\
    mirrored_tb (Z.to_nat samples) (Z.to_nat lines) img img'.
Proof. exact @invert_lines_ok. Qed.
Print Assumptions C02_invert_lines_mirrors.

Example C02_case :
  fits 2 3 /\ invert_lines [1;2;3;4;5;6]%Z 2 3 = Ok [5;6;3;4;1;2]%Z.
Proof. split; [unfold fits; lia|reflexivity]. Qed.

(** C03: both inversions are involutions, they commute, and together they
    reverse the pixel sequence. *)
Theorem C03_inversion_laws : forall (A : Type) (img : list A) samples lines,
  fits samples lines -> Z.of_nat (length img) = (samples * lines)%Z ->
  bind (invert_samples img samples lines) (fun j => invert_samples j samples lines) = Ok img /\
  bind (invert_lines img samples lines) (fun j => invert_lines j samples lines) = Ok img /\
  bind (invert_samples img samples lines) (fun j => invert_lines j samples lines) = Ok (rev img) /\
  bind (invert_lines img samples lines) (fun j => invert_samples j samples lines) = Ok (rev img).
Proof. exact @inversion_laws. Qed.
Print Assumptions C03_inversion_laws.

Example C03_case :
  fits 2 2 /\
  bind (invert_samples [1;2;3;4]%Z 2 2) (fun j => invert_lines j 2 2) = Ok [4;3;2;1]%Z.
Proof. split; [unfold fits; lia|reflexivity]. Qed.

(** C04, full statement: for all [std::size_t] dimensions a wrong size is
    rejected and no element outside the image is touched.  It is false:
    dimensions whose product wraps around pass the check. *)
Theorem C04_inversion_size_check_refuted :
  exists (img : list Z) samples lines,
    is_size samples /\ is_size lines /\
    invert_samples img samples lines = UB ub_access /\
    invert_lines img samples lines = UB ub_access.
Proof. exact invert_wrap_refuted. Qed.
Print Assumptions C04_inversion_size_check_refuted.

(** C04 restricted to dimensions whose product does not wrap. *)
Theorem C04_inversion_size_check_partial : forall (A : Type) (img : list A) samples lines,
  fits samples lines ->
  (Z.of_nat (length img) <> (samples * lines)%Z ->
     invert_samples img samples lines = Throw invalid_argument /\
     invert_lines img samples lines = Throw invalid_argument) /\
  (Z.of_nat (length img) = (samples * lines)%Z ->
     (exists j, invert_samples img samples lines = Ok j /\ length j = length img) /\
     (exists j, invert_lines img samples lines = Ok j /\ length j = length img)).
Proof. exact @inversion_guard. Qed.
Print Assumptions C04_inversion_size_check_partial.

Example C04_case :
  fits 3 2 /\ invert_lines [1;2;3]%Z 3 2 = Throw invalid_argument.
Proof. split; [unfold fits; lia|reflexivity]. Qed.
