(** C57: the image array of a map file. *)
From Coq Require Import List ZArith Bool Lia.
From Verif Require Import Base Fits_Model Fits_Spec Fits_Proofs.
Import ListNotations.
Open Scope Z_scope.

(** C57: for planes of two or more elements and any history of attempts, exactly
    those of the right size that CFITSIO carries out succeed, at most one per
    plane; the n-th occupies its own elements for good, and nothing is written
    outside the planes accepted and the one in progress. *)
Theorem C57_writes_partial : forall {E} samples lines planes size (l : list (attempt E)) d,
  0 <= samples -> 0 <= lines -> Z.of_nat size = samples * lines -> (2 <= size)%nat -> (1 <= planes)%nat ->
  samples * lines * Z.of_nat planes < 2 ^ 63 - 1 -> Forall real_size l ->
  let v := verdicts size planes 0 l in
  let k := length (accepted l v) in
  exists im d', writes l (image_new samples lines (Z.of_nat planes)) d = Ok (v, im, d') /\
    (k <= planes)%nat /\
    (forall j data, nth_error (accepted l v) j = Some data ->
       length data = size /\ occupies d' (Z.of_nat j * Z.of_nat size) data) /\
    (forall e, e < 1 \/ Z.of_nat (S k) * Z.of_nat size < e \/ Z.of_nat planes * Z.of_nat size < e -> d' e = d e) /\
    (Forall (no_failure size) l -> forall e, Z.of_nat k * Z.of_nat size < e -> d' e = d e).
Proof. exact @image_writes. Qed.
Print Assumptions C57_writes_partial.
Example C57_writes_case :
  let d : disk Z := fun _ => None in
  exists im d', writes [Attempt [1; 2; 3] 0 d; Attempt [4; 5] 0 d; Attempt [6; 7] 104 d; Attempt [8; 9] 0 d; Attempt [0; 0] 0 d]
    (image_new 2 1 2) d = Ok ([false; true; false; true; false], im, d') /\
    map d' [0; 1; 2; 3; 4; 5] = [None; Some 4; Some 5; Some 8; Some 9; None].
Proof. do 2 eexists. split; vm_compute; reflexivity. Qed.

(** A write beyond the last plane or of another size changes nothing at all. *)
Theorem C57_refused_unchanged : forall {E} size planes n (a : attempt E) d, (2 <= size)%nat -> (n <= planes)%nat ->
  Z.of_nat size * Z.of_nat planes < 2 ^ 63 - 1 -> real_size a ->
  n = planes \/ length (a_data a) <> size ->
  write a (at_plane size planes n) d = Ok (false, at_plane size planes n, d).
Proof. exact @refused. Qed.
Print Assumptions C57_refused_unchanged.
Example C57_refused_case :
  let d : disk Z := fun _ => None in
  write (Attempt [1; 2] 0 d) (at_plane 2 3 3) d = Ok (false, at_plane 2 3 3, d).
Proof. apply C57_refused_unchanged; unfold real_size, size_mod; cbn; lia. Qed.

(** The array created in the file has the elements of all planes. *)
Theorem C57_array_size : forall samples lines planes, 0 <= samples -> 0 <= lines -> 1 <= planes ->
  samples < 2 ^ 63 -> lines < 2 ^ 63 -> planes < 2 ^ 63 ->
  fold_right Z.mul 1 (image_axes samples lines planes) = samples * lines * planes.
Proof. exact axes_size. Qed.
Print Assumptions C57_array_size.
Example C57_array_case : image_axes 4 3 1 = [4; 3] /\ image_axes 4 3 2 = [4; 3; 2].
Proof. split; reflexivity. Qed.

(** C57 fails for planes of one element: the last one is always refused. *)
Theorem C57_refuted : forall {E} planes (x : E) d, (1 <= planes)%nat -> Z.of_nat planes < 2 ^ 63 ->
  exists im d', writes (repeat (Attempt [x] 0 d) planes) (image_new 1 1 (Z.of_nat planes)) d =
    Ok (repeat true (planes - 1) ++ [false], im, d') /\ d' (Z.of_nat planes) = d (Z.of_nat planes).
Proof. exact @single_element. Qed.
Print Assumptions C57_refuted.
Example C57_refuted_case : exists im d',
  writes [Attempt [7] 0 (fun _ => None)] (image_new 1 1 1) (fun _ => None) = Ok ([false], im, d') /\ d' 1 = None.
Proof. exact (C57_refuted 1 7 (fun _ => None) (le_n 1) eq_refl). Qed.
