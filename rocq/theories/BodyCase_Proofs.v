(** Programs to run: C117, C118 and C119 hold of something. *)
From Coq Require Import List ZArith Reals Bool String Lra Lia Psatz.
From Flocq Require Import Core BinarySingleNaN.
From Verif Require Import Base BaseFacts Flt FltFacts Num LinAlg_Model Maths_Model Spheroid_Model Spheroid_Spec Proj_Model Proj_Spec Virtual_Model Virtual_Proofs Entry_Model Params_Model Command_Model Input_Model
  Parse_Model Parse_Spec Run_Model Run_Spec RunAngle_Proofs RunCase_Proofs PiBound_Proofs Roots_Model OrthoDouble_Proofs Ortho_Model Ortho_Spec RunOrtho_Spec OrthoCase_Proofs
  Body_Model Body_Spec BodyDouble_Proofs.
Import ListNotations.
Open Scope R_scope.

#[local] Existing Instance prec53.
#[local] Existing Instance emax53.
#[local] Instance valid53_body : Valid_exp (SpecFloat.fexp 53 1024) := fexp_correct 53 1024 eq_refl.
Local Notation rnd := (round radix2 (SpecFloat.fexp 53 1024) ZnearestE).
Local Ltac abs H := apply Rabs_le_inv in H.

(** ** The real functions, rounded *)
Definition real_library : libm ar_double :=
  Libm ar_double (fun x => rounded (sin (B2R (x : double)))) (fun x => rounded (cos (B2R (x : double)))) (fun x => rounded (tan (B2R (x : double)))) (fun x => x)
    (fun x _ => rounded (B2R (x : double) ^ 2)) (fun x y => rounded (hypot (B2R (x : double)) (B2R (y : double))))
    (l_atan2 close_library_1)
    (Bnearbyint mode_NA) d_pi d_2pi d_pi2 d_pi2 d_degree eps_double tiny_double.
Definition real_arctan (x : double) : double := rounded (atan (B2R x)).

Lemma rounded_pi2 r : Rabs r < PI / 2 -> Rabs (rnd r) <= B2R d_pi2.
Proof.
  intros H. assert (G : generic_format radix2 (SpecFloat.fexp 53 1024) (B2R d_pi2)) by apply generic_format_B2R.
  assert (S : forall x, x < PI / 2 -> rnd x <= B2R d_pi2).
  { intros x Hx. destruct (Rle_lt_dec x (B2R d_pi2)) as [K|K].
    - rewrite <- (round_generic radix2 (SpecFloat.fexp 53 1024) ZnearestE (B2R d_pi2) G). apply round_le; auto with typeclass_instances.
    - pose proof pi_between as P. pose proof pi2_below as Q.
      assert (N : Rabs (rnd x - x) <= Rabs (B2R d_pi2 - x)). { destruct (round_N_pt radix2 (SpecFloat.fexp 53 1024) (fun z => negb (Z.even z)) x) as [_ M]. apply M. exact G. }
      rewrite (Rabs_left (B2R d_pi2 - x)) in N by lra. abs N.
      assert (rnd x <= 1.57079632679489675) by lra. 
      destruct (Rle_lt_dec (rnd x) (B2R d_pi2)) as [Z|Z]; [exact Z|exfalso].
      assert (F : succ radix2 (SpecFloat.fexp 53 1024) (B2R d_pi2) <= rnd x) by (apply succ_le_lt; auto with typeclass_instances; apply generic_format_round; auto with typeclass_instances).
      rewrite succ_eq_pos in F by lra. unfold ulp in F. rewrite Req_bool_false in F by lra.
      assert (C : cexp radix2 (SpecFloat.fexp 53 1024) (B2R d_pi2) = (-52)%Z).
      { unfold cexp. rewrite (mag_unique radix2 (B2R d_pi2) 1); [reflexivity|]. rewrite Rabs_pos_eq by lra. change (bpow radix2 (1 - 1)) with 1. change (bpow radix2 1) with 2. lra. }
      rewrite C in F. assert (B : bpow radix2 (-52) = / 4503599627370496) by reflexivity. rewrite B in F. lra. }
  apply Rabs_def2 in H. apply Rabs_le. split; [|apply S; apply H].
  rewrite <- (Ropp_involutive r). rewrite round_NE_opp. apply Ropp_le_contravar, S. lra.
Qed.

Lemma good_1 : good_library real_library real_arctan.
Proof.
  pose proof u_value as UV. pose proof eta_tiny as [T0 T]. pose proof pi_between as PB.
  constructor.
  - intros x Fx Bx. cbn [l_sin real_library]. pose proof (SIN_bound (B2R x)) as S.
    destruct (rounded_near (sin (B2R x))) as [F N]; [apply Rabs_le; lra|]. split; [exact F|]. eapply Rle_trans; [exact N|].
    assert (Rabs (sin (B2R x)) <= 1) by (apply Rabs_le; lra). rewrite UV. lra.
  - intros x Fx Bx. cbn [l_cos real_library]. pose proof (COS_bound (B2R x)) as S.
    destruct (rounded_near (cos (B2R x))) as [F N]; [apply Rabs_le; lra|]. split; [exact F|]. eapply Rle_trans; [exact N|].
    assert (Rabs (cos (B2R x)) <= 1) by (apply Rabs_le; lra). rewrite UV. lra.
  - intros x Fx Bx. cbn [l_pow real_library]. replace (B2R x ^ 2) with (B2R x * B2R x) by ring.
    assert (Q : / 4 * / 4 <= B2R x * B2R x <= 4 * 4) by (split; apply Rmult_le_compat; lra). set (s := B2R x * B2R x) in *.
    destruct (rounded_near s) as [F N]; [apply Rabs_le; lra|]. split; [exact F|]. eapply Rle_trans; [exact N|]. rewrite (Rabs_pos_eq s), UV by lra. lra.
  - intros x Fx Bx. cbn [l_tan real_library]. pose proof (tan_large _ Bx) as B. destruct (rounded_near (tan (B2R x))) as [F N]; [lra|].
    split; [exact F|]. eapply Rle_trans; [exact N|]. pose proof (Rabs_pos (tan (B2R x))). rewrite UV. lra.
  - intros x Fx. unfold real_arctan. pose proof (atan_bound (B2R x)) as B. assert (B' : Rabs (atan (B2R x)) < PI / 2) by (apply Rabs_def1; lra).
    destruct (rounded_near (atan (B2R x))) as [F N]; [lra|]. destruct (rounded_value (atan (B2R x))) as [_ V]; [lra|].
    split; [split; [exact F|]|rewrite V; apply rounded_pi2; exact B'].
    eapply Rle_trans; [exact N|]. rewrite UV. lra.
  - intros x y Fx Fy Bx By. cbn [l_hypot real_library]. set (h := hypot (B2R x) (B2R y)).
    assert (H0 : 0 <= h) by apply sqrt_pos.
    assert (Hb : h <= 2e10).
    { unfold h, hypot. rewrite <- (sqrt_square 2e10) by lra. apply sqrt_le_1_alt.
      assert (Q : forall p, Rabs p <= 1e10 -> p * p <= 1e10 * 1e10).
      { intros p Hp. rewrite <- (Rabs_pos_eq (p * p)) by apply Rle_0_sqr. rewrite Rabs_mult. apply Rmult_le_compat; try apply Rabs_pos; assumption. }
      pose proof (Q _ Bx). pose proof (Q _ By). lra. }
    destruct (rounded_near h) as [F N]; [apply Rabs_le; lra|]. rewrite (Rabs_pos_eq h) in N by exact H0.
    split; [exact F|]. eapply Rle_trans; [exact N|]. rewrite UV. lra.
Qed.

Lemma real_close : close_library real_library.
Proof. destruct close_1. constructor; assumption. Qed.

(** ** Programs *)
Definition with_bodies (l : libm ar_double) (arctan : double -> double) (X : outside) : outside :=
  let eq b := Spheroid_Model.eq_rad (b : body) in let pol b := Spheroid_Model.pol_rad (b : body) in
  Outside l (x_scale X) (x_long X) (x_fmod X) (x_acos X) (x_circle X) (x_au X) (x_max_range X) (x_find X) double_roots
    (fun b => double_graphic l arctan (eq b) (pol b)) (fun b => double_centric l arctan (eq b) (pol b)) (x_radius X) (x_eccentricity X)
    (fun b => double_mu l arctan (eq b) (pol b)) (fun b => double_mu0 l arctan (eq b) (pol b)) (fun b => double_cos_phase l (eq b) (pol b))
    (x_file X) (x_header X) (x_geometry X).
Definition real_program : outside := with_bodies real_library real_arctan the_program.
Lemma real_ieee : ieee real_program.
Proof. constructor; try reflexivity. exact remainder_spec. Qed.
Lemma real_spheroids : spheroids real_program real_arctan.
Proof. intros b. repeat split. Qed.
Lemma earth_size : body_size (double_of_Z 6378) (double_of_Z 6357).
Proof.
  destruct (double_of_Z_exact 6378 ltac:(lia)) as [F1 E1]. destruct (double_of_Z_exact 6357 ltac:(lia)) as [F2 E2].
  unfold body_size. rewrite E1, E2. repeat split; try assumption; lra.
Qed.

(** ** A computable library: series in doubles *)
Local Notation "x +. y" := (Bplus mode_NE x y) (at level 50, left associativity).
Local Notation "x *. y" := (Bmult mode_NE x y) (at level 40, left associativity).
Local Notation "x /. y" := (Bdiv mode_NE x y) (at level 40, left associativity).
(** [term + term * -x^2 / ((n+1)(n+2)) + ...] *)
Fixpoint series (steps : nat) (x2 term : double) (n : Z) : double :=
  match steps with
  | O => term
  | S s => term +. series s x2 (Bopp (term *. x2 /. double_of_Z ((n + 1) * (n + 2)))) (n + 2)
  end.
Definition sin_series (x : double) : double := series 30 (x *. x) x 1.
Definition cos_series (x : double) : double := series 30 (x *. x) (double_of_Z 1) 0.
Definition half_angle (x : double) : double := x /. (double_of_Z 1 +. Bsqrt mode_NE (double_of_Z 1 +. x *. x)).
Fixpoint atan_terms (steps : nat) (x2 power : double) (n : Z) : double :=
  match steps with
  | O => power /. double_of_Z n
  | S s => power /. double_of_Z n +. atan_terms s x2 (Bopp (power *. x2)) (n + 2)
  end.
Definition atan_series (x : double) : double :=
  let y := half_angle (half_angle (half_angle x)) in double_of_Z 8 *. atan_terms 12 (y *. y) y 1.
Definition atan2_series (y x : double) : double :=
  let zero := double_of_Z 0 in
  if flt zero x then atan_series (y /. x)
  else if flt x zero then (if flt y zero then Bminus mode_NE (atan_series (y /. x)) d_pi else atan_series (y /. x) +. d_pi)
  else if flt zero y then d_pi2 else if flt y zero then Bopp d_pi2 else zero.
Definition series_library : libm ar_double :=
  Libm ar_double sin_series cos_series (fun x => sin_series x /. cos_series x) (fun x => x) (fun x _ => x *. x)
    (fun x y => Bsqrt mode_NE (x *. x +. y *. y)) atan2_series (Bnearbyint mode_NA) d_pi d_2pi d_pi2 d_pi2 d_degree eps_double tiny_double.
Definition series_program : outside := with_bodies series_library atan_series the_program.
Definition series_ortho (prograde : bool) (o : option (option average * ortho_options)) (p : plane_type) : option (list (option Z)) :=
  first_run series_program (ortho_entry prograde o p) the_cells.
Definition series_run (p : plane_type) : option (list (option Z)) := first_run series_program (the_map p) the_cells.

Lemma body_case : good_library real_library real_arctan /\ body_size (double_of_Z 6378) (double_of_Z 6357) /\
  upon 0 (double_of_Z 1) 1 /\ toward 0 (double_of_Z 2) 2 /\ distance (double_of_Z 100000) (double_of_Z 6378) /\
  let g := double_graphic series_library atan_series (double_of_Z 6378) (double_of_Z 6357) (Bmult mode_NE (double_of_Z 45) d_degree) in
  flt (Bdiv mode_NE (double_of_Z 45188) (double_of_Z 1000)) (Bdiv mode_NE g d_degree) = true /\ flt (Bdiv mode_NE g d_degree) (Bdiv mode_NE (double_of_Z 45190) (double_of_Z 1000)) = true.
Proof.
  split; [exact good_1|]. split; [exact earth_size|]. pose proof pi_between as PB. pose proof pi2_below as P2.
  destruct (double_of_Z_exact 1 ltac:(lia)) as [F1 E1]. destruct (double_of_Z_exact 2 ltac:(lia)) as [F2 E2].
  destruct (double_of_Z_exact 6378 ltac:(lia)) as [F3 E3]. destruct (double_of_Z_exact 100000 ltac:(lia)) as [F4 E4].
  split. { split; [split; [exact F1|rewrite E1, Rabs_pos_eq; lra]|]. split; [lra|]. rewrite E1, Rminus_eq_0, Rabs_R0. lra. }
  split. { split; [exact F2|]. rewrite E2. split; [rewrite Rabs_pos_eq; lra|]. rewrite Rminus_eq_0, Rabs_R0. lra. }
  split. { split; [exact F4|]. rewrite E3, E4. lra. }
  split; vm_compute; reflexivity.
Qed.
