(** The point plotted by orthographic maps, in doubles: used by the proofs of
    C116. *)
From Coq Require Import List ZArith Reals Bool Lra Lia Psatz.
From Flocq Require Import Core BinarySingleNaN Relative.
From Verif Require Import Base BaseFacts Flt FltFacts Num LinAlg_Model Maths_Spec Spheroid_Model Spheroid_Spec Spheroid_Proofs Proj_Model Proj_Spec Proj_Proofs
  Virtual_Model Virtual_Proofs RunAngle_Proofs Roots_Model OrthoDouble_Proofs OrthoRoots_Proofs PiBound_Proofs
  Ortho_Model Ortho_Spec Ortho_Proofs OrthoNear_Proofs RunOrtho_Spec.
Import ListNotations.
Open Scope R_scope.

#[local] Existing Instance prec53.
#[local] Existing Instance emax53.
Local Ltac abs H := apply Rabs_le_inv in H.

Lemma pi_val : is_finite d_pi = true /\ Rabs (B2R d_pi - PI) <= 2e-16.
Proof.
  destruct (parts d_pi) as [[m e]|] eqn:P; vm_compute in P; [|discriminate P].
  destruct (parts_value d_pi _ _ P) as [F V]. injection P as <- <-. split; [exact F|]. rewrite V. pose proof pi_between.
  apply Rabs_le. cbn -[IZR PI]. lra.
Qed.

(** Products of coordinates with sines and cosines. *)
Lemma product_near (x s : double) t : is_finite x = true -> Rabs (B2R x) <= 1e28 -> nearly s t 1e-15 -> Rabs t <= 1 ->
  is_finite (Bmult mode_NE x s) = true /\ Rabs (B2R (Bmult mode_NE x s) - B2R x * t) <= 1.12e-15 * Rabs (B2R x) + 1e-120.
Proof.
  intros F B [Fs Es] T. pose proof u_value as UV. pose proof eta_tiny as [_ E].
  assert (S1 : Rabs (B2R s) <= 1.001). { replace (B2R s) with (B2R s - t + t) by ring. eapply Rle_trans; [apply Rabs_triang|]. lra. }
  assert (P : Rabs (B2R x * B2R s) <= 1.001 * Rabs (B2R x)).
  { rewrite Rabs_mult, Rmult_comm. apply Rmult_le_compat_r; [apply Rabs_pos|exact S1]. }
  destruct (mult_rel x s F Fs) as [Fm Em]; [lra|]. split; [exact Fm|].
  assert (D : Rabs (B2R x * B2R s - B2R x * t) <= 1e-15 * Rabs (B2R x)).
  { rewrite <- Rmult_minus_distr_l, Rabs_mult, Rmult_comm. apply Rmult_le_compat_r; [apply Rabs_pos|exact Es]. }
  rewrite UV in Em. abs Em. abs D. apply Rabs_le. pose proof (Rabs_pos (B2R x)). lra.
Qed.
Lemma size_le m n : Rabs m <= 1e28 -> Rabs n <= 1e28 -> Rabs m + Rabs n <= 2e28.
Proof. lra. Qed.
Lemma sum_near (x z s s' : double) t t' : is_finite x = true -> Rabs (B2R x) <= 1e28 -> is_finite z = true -> Rabs (B2R z) <= 1e28 ->
  nearly s t 1e-15 -> Rabs t <= 1 -> nearly s' t' 1e-15 -> Rabs t' <= 1 ->
  (let r := Bplus mode_NE (Bmult mode_NE x s) (Bmult mode_NE z s') in
   is_finite r = true /\ Rabs (B2R r - (B2R x * t + B2R z * t')) <= 1.3e-15 * (Rabs (B2R x) + Rabs (B2R z)) + 1e-110) /\
  (let r := Bminus mode_NE (Bmult mode_NE x s) (Bmult mode_NE z s') in
   is_finite r = true /\ Rabs (B2R r - (B2R x * t - B2R z * t')) <= 1.3e-15 * (Rabs (B2R x) + Rabs (B2R z)) + 1e-110).
Proof.
  intros Fx Bx Fz Bz N T N' T'. destruct (product_near x s t Fx Bx N T) as [F1 E1]. destruct (product_near z s' t' Fz Bz N' T') as [F2 E2].
  pose proof u_value as UV. pose proof eta_tiny as [_ E].
  assert (P1 : Rabs (B2R x * t) <= Rabs (B2R x)).
  { rewrite Rabs_mult, <- (Rmult_1_r (Rabs (B2R x))) at 1. rewrite Rmult_1_r. rewrite <- (Rmult_1_r (Rabs (B2R x))) at 2. apply Rmult_le_compat_l; [apply Rabs_pos|exact T]. }
  assert (P2 : Rabs (B2R z * t') <= Rabs (B2R z)).
  { rewrite Rabs_mult. rewrite <- (Rmult_1_r (Rabs (B2R z))) at 2. apply Rmult_le_compat_l; [apply Rabs_pos|exact T']. }
  set (p := Bmult mode_NE x s) in *. set (q := Bmult mode_NE z s') in *. set (X := Rabs (B2R x)) in *. set (Z := Rabs (B2R z)) in *.
  assert (X0 : 0 <= X) by apply Rabs_pos. assert (Z0 : 0 <= Z) by apply Rabs_pos.
  abs E1. abs E2. abs P1. abs P2.
  assert (A1 : Rabs (B2R p + B2R q) <= 1.01 * (X + Z) + 1e-119) by (apply Rabs_le; lra).
  assert (A2 : Rabs (B2R p - B2R q) <= 1.01 * (X + Z) + 1e-119) by (apply Rabs_le; lra).
  cbv zeta. split.
  - destruct (plus_rel p q F1 F2) as [F R]; [lra|]. split; [exact F|]. rewrite UV in R. abs R. apply Rabs_le. lra.
  - destruct (minus_rel p q F1 F2) as [F R]; [lra|]. split; [exact F|]. rewrite UV in R. abs R. apply Rabs_le. lra.
Qed.
Lemma neg_value (x : double) : is_finite x = true -> is_finite (neg (A := ar_double) x : double) = true /\ B2R (neg (A := ar_double) x : double) = - B2R x.
Proof. intros F. unfold neg. cbn [a_sub a_of_Z ar_double]. destruct (double_of_Z_exact 0 ltac:(lia)) as [F0 E0]. now apply zero_minus. Qed.

(** Directions found by std::atan2. *)
Lemma direction (L : libm ar_double) (x y : double) : close_library L -> is_finite x = true -> is_finite y = true ->
  let t : double := l_atan2 L (neg (A := ar_double) x) y in
  is_finite t = true /\ Rabs (B2R t) <= 4 /\
  exists t', Rabs (B2R t - t') <= 1e-15 /\
    hypot (B2R x) (B2R y) * cos t' = B2R y /\ hypot (B2R x) (B2R y) * sin t' = - B2R x.
Proof.
  intros C Fx Fy. cbv zeta. destruct (neg_value x Fx) as [Fn En]. destruct (cl_atan2 L C _ _ Fn Fy) as (F & B & N & W). cbv zeta in *.
  split; [exact F|]. split; [exact B|]. rewrite En in N, W.
  assert (G : - B2R x <> 0 \/ 0 < B2R y \/ (- B2R x = 0 /\ (B2R y < 0 \/ B2R y = 0))).
  { destruct (Req_dec (- B2R x) 0); [|auto]. right. destruct (Rtotal_order (B2R y) 0) as [|[|]]; auto. }
  set (v := l_atan2 L _ _) in *.
  assert (P : - B2R x <> 0 \/ 0 < B2R y -> exists t', Rabs (B2R (v : double) - t') <= 1e-15 /\
    hypot (B2R x) (B2R y) * cos t' = B2R y /\ hypot (B2R x) (B2R y) * sin t' = - B2R x).
  { intros K. exists (atan2 (- B2R x) (B2R y)). split; [now apply N|].
    destruct (atan2_polar (B2R y) (- B2R x)) as (C' & S' & _); [destruct K; [now right|left; lra]|].
    replace (hypot (B2R y) (- B2R x)) with (hypot (B2R x) (B2R y)) in C', S' by (unfold hypot; f_equal; ring). auto. }
  destruct G as [K|[K|[Z [K|K]]]]; [apply P; now left|apply P; now right| |].
  - assert (B2R x = 0) as -> by lra. assert (hypot 0 (B2R y) = - B2R y) as ->.
    { unfold hypot. replace (0 * 0 + B2R y * B2R y) with (- B2R y * - B2R y) by ring. apply sqrt_square. lra. }
    destruct (W Z K) as [K'|K'].
    + exists PI. split; [exact K'|]. rewrite cos_PI, sin_PI. split; ring.
    + exists (- PI). split; [now replace (B2R (v : double) - - PI) with (B2R (v : double) + PI) by ring|]. rewrite cos_neg, sin_neg, cos_PI, sin_PI. split; ring.
  - exists (B2R (v : double)). split; [rewrite Rminus_eq_0, Rabs_R0; lra|]. assert (B2R x = 0) as -> by lra. rewrite K.
    unfold hypot. replace (0 * 0 + 0 * 0) with 0 by ring. rewrite sqrt_0. split; ring.
Qed.
