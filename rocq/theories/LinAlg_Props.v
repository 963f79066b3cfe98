(** Property theorems C33, C34 and C75: vectors, matrices and rotations. *)
From Coq Require Import List ZArith Reals Lra Lia Bool.
From Verif Require Import Base Num LinAlg_Model Maths_Spec LinAlg_Proofs.
Import ListNotations.
Open Scope R_scope.

(** C33: index formulas. *)
Theorem C33_index_formulas :
  (forall M a b i, is_vec M a -> is_vec M b -> (i < M)%nat -> vget (vadd a b) i = vget a i + vget b i) /\
  (forall M a b i, is_vec M a -> is_vec M b -> (i < M)%nat -> vget (vsub a b) i = vget a i - vget b i) /\
  (forall v x i, vget (vscale v x) i = vget v i * x) /\
  (forall M N a b r c, is_mat M N a -> is_mat M N b -> (r < M)%nat -> (c < N)%nat ->
     mget (madd a b) r c = mget a r c + mget b r c) /\
  (forall M N a b r c, is_mat M N a -> is_mat M N b -> (r < M)%nat -> (c < N)%nat ->
     mget (msub a b) r c = mget a r c - mget b r c) /\
  (forall m x r c, mget (mscale m x) r c = mget m r c * x) /\
  (forall M N m r c, (r < M)%nat -> (c < N)%nat -> mget (transpose M N m) c r = mget m r c) /\
  (forall M N K a b r c, (r < M)%nat -> (c < K)%nat ->
     mget (mmul M N K a b) r c = sum_to N (fun n => mget a r n * mget b n c)) /\
  (forall M N a x r, (r < M)%nat -> vget (mvmul M N a x) r = sum_to N (fun n => mget a r n * vget x n)) /\
  (forall a M b, is_vec M a -> is_vec M b -> dot_product a b = inner M a b).
Proof.
  exact (conj (fun M a b i => map2_get Rplus a b M i) (conj (fun M a b i => map2_get Rminus a b M i)
    (conj vscale_get (conj (fun M N a b r c => map2m_get Rplus a b M N r c)
    (conj (fun M N a b r c => map2m_get Rminus a b M N r c) (conj mscale_get (conj transpose_get
    (conj mmul_get (conj mvmul_get dot_product_inner))))))))).
Qed.
Print Assumptions C33_index_formulas.

(** C33: dimensions of the results. *)
Theorem C33_dimensions :
  (forall M a b, is_vec M a -> is_vec M b -> is_vec M (vadd a b) /\ is_vec M (vsub a b)) /\
  (forall M N a b, is_mat M N a -> is_mat M N b -> is_mat M N (madd a b) /\ is_mat M N (msub a b)) /\
  (forall M N m, is_mat N M (transpose M N m)) /\
  (forall M N K a b, is_mat M K (mmul M N K a b)) /\
  (forall M N a x, is_vec M (mvmul M N a x)).
Proof.
  exact (conj (fun M a b Ha Hb => conj (map2_length Rplus a b M Ha Hb) (map2_length Rminus a b M Ha Hb))
    (conj (fun M N a b Ha Hb => conj (map2m_mat Rplus a b M N Ha Hb) (map2m_mat Rminus a b M N Ha Hb))
    (conj transpose_mat (conj mmul_mat mvmul_vec)))).
Qed.
Print Assumptions C33_dimensions.

(** C33: algebra. *)
Theorem C33_algebra :
  (forall M N K a b v, mvmul M K (mmul M N K a b) v = mvmul M N a (mvmul N K b v)) /\
  (forall M N K L a b c, mmul M K L (mmul M N K a b) c = mmul M N L a (mmul N K L b c)) /\
  (forall M N K a b, transpose M K (mmul M N K a b) = mmul K N M (transpose N K b) (transpose M N a)) /\
  (forall M N m, is_mat M N m -> transpose N M (transpose M N m) = m) /\
  (forall M N a u v x, is_vec N u -> is_vec N v ->
     mvmul M N a (vadd u v) = vadd (mvmul M N a u) (mvmul M N a v) /\
     mvmul M N a (vscale u x) = vscale (mvmul M N a u) x).
Proof.
  exact (conj mmul_assoc_vec (conj mmul_assoc (conj transpose_mmul (conj transpose_involutive mvmul_linear)))).
Qed.
Print Assumptions C33_algebra.

(** C33: checked access. *)
Theorem C33_checked_access :
  (forall M v row, (0 <= row)%Z ->
     vat M v row = (if (row <? Z.of_nat M)%Z then Ok (vget v (Z.to_nat row)) else Throw out_of_range)) /\
  (forall M N m r c, (0 <= r)%Z -> (0 <= c)%Z ->
     mat_at M N m r c = (if ((r <? Z.of_nat M) && (c <? Z.of_nat N))%Z
                         then Ok (mget m (Z.to_nat r) (Z.to_nat c)) else Throw out_of_range)).
Proof. exact (conj vat_spec mat_at_spec). Qed.
Print Assumptions C33_checked_access.

Example C33_case :
  mget (mmul 2 2 2 [[1; 2]; [3; 4]] [[0; 1]; [1; 0]]) 1 0 = 4 /\
  mat_at 2 2 [[1; 2]; [3; 4]] 1 2 = Throw out_of_range /\ vat 2 [5; 6] 1 = Ok 6.
Proof. split; [|split; reflexivity]. rewrite mmul_get by lia. unfold mget, vget. cbn [sum_to nth]. lra. Qed.

(** C34 *)
Theorem C34_rotations :
  (forall a u v, is_vec 3 u -> is_vec 3 v ->
     inner 3 (RotX a u) (RotX a v) = inner 3 u v /\
     inner 3 (RotY a u) (RotY a v) = inner 3 u v /\
     inner 3 (RotZ a u) (RotZ a v) = inner 3 u v) /\
  (forall a v, is_vec 3 v ->
     RotX (- a) (RotX a v) = v /\ RotY (- a) (RotY a v) = v /\ RotZ (- a) (RotZ a v) = v) /\
  (forall a v, is_vec 3 v ->
     mvmul 3 3 (RotXMatrix a) v = RotX a v /\ mvmul 3 3 (RotYMatrix a) v = RotY a v /\
     mvmul 3 3 (RotZMatrix a) v = RotZ a v) /\
  (forall a,
     mmul 3 3 3 (transpose 3 3 (RotXMatrix a)) (RotXMatrix a) = identity3 /\
     mmul 3 3 3 (RotXMatrix a) (transpose 3 3 (RotXMatrix a)) = identity3 /\
     mmul 3 3 3 (transpose 3 3 (RotYMatrix a)) (RotYMatrix a) = identity3 /\
     mmul 3 3 3 (RotYMatrix a) (transpose 3 3 (RotYMatrix a)) = identity3 /\
     mmul 3 3 3 (transpose 3 3 (RotZMatrix a)) (RotZMatrix a) = identity3 /\
     mmul 3 3 3 (RotZMatrix a) (transpose 3 3 (RotZMatrix a)) = identity3).
Proof. exact (conj rot_inner (conj rot_undo (conj rot_matrix rot_orthogonal))). Qed.
Print Assumptions C34_rotations.

(** The coordinate axes turn in the documented direction: rotating by a quarter
    turn about x takes the z axis to the y axis, and so on cyclically. *)
Theorem C34_direction :
  RotX (PI / 2) [0; 0; 1] = [0; 1; 0] /\ RotY (PI / 2) [1; 0; 0] = [0; 0; 1] /\
  RotZ (PI / 2) [0; 1; 0] = [1; 0; 0].
Proof. exact quarter_turns. Qed.
Print Assumptions C34_direction.

Example C34_case : is_vec 3 [1; 2; 3] /\ inner 3 [1; 2; 3] [1; 2; 3] = 14.
Proof. split; [reflexivity|]. unfold inner, vget. cbn [sum_to nth]. lra. Qed.

(** C75 for 2 and 3 elements.  Missing: 1 element, refuted below; other sizes
    do not compile. *)
Theorem C75_magnitude_partial :
  (forall v M, is_vec M v -> (M = 2 \/ M = 3)%nat -> magnitude v = Some (sqrt (inner M v v))) /\
  (forall v M, is_vec M v -> (M = 2 \/ M = 3)%nat -> inner M v v <> 0 ->
     exists u, to_unit_vector v = Some u /\ is_vec M u /\ inner M u u = 1 /\
       exists k, 0 < k /\ v = vscale u k).
Proof. exact (conj magnitude_norm unit_vector_norm). Qed.
Print Assumptions C75_magnitude_partial.

(** The magnitude of the one-element vector (-1) is reported as -1. *)
Theorem C75_magnitude_refuted : magnitude [-1] <> Some (sqrt (inner 1 [-1] [-1])).
Proof. exact magnitude_one_refuted. Qed.
Print Assumptions C75_magnitude_refuted.

Example C75_case : magnitude [3; 4] = Some 5.
Proof.
  rewrite (magnitude_norm _ 2) by (try reflexivity; auto). f_equal.
  unfold inner, vget. cbn [sum_to nth]. replace (0 + 3 * 3 + 4 * 4) with (5 * 5) by ring. apply sqrt_square. lra.
Qed.
