(** Programs to run: C116 holds of something. *)
From Coq Require Import List ZArith Reals Bool String Lra Lia Psatz.
From Flocq Require Import Core BinarySingleNaN.
From Verif Require Import Base BaseFacts Flt FltFacts Num Maths_Model Spheroid_Model Proj_Model Proj_Spec Virtual_Model Virtual_Proofs Entry_Model Params_Model Command_Model Input_Model
  Parse_Model Parse_Spec Run_Model Run_Spec RunAngle_Proofs RunCase_Proofs PiBound_Proofs Roots_Model OrthoDouble_Proofs Ortho_Model Ortho_Spec RunOrtho_Spec.
Import ListNotations.
Open Scope R_scope.

#[local] Existing Instance prec53.
#[local] Existing Instance emax53.
#[local] Instance valid53_case : Valid_exp (SpecFloat.fexp 53 1024) := fexp_correct 53 1024 eq_refl.
Local Notation rnd := (round radix2 (SpecFloat.fexp 53 1024) ZnearestE).
Local Ltac abs H := apply Rabs_le_inv in H.

(** ** A computable program, whose functions are not those of <cmath> *)
Definition flat_library : libm ar_double :=
  Libm ar_double (fun _ => double_of_Z 0) (fun _ => double_of_Z 1) (fun x => x) (fun x => x) (fun _ _ => double_of_Z 0) (fun x _ => x)
    (fun y _ => Bdiv mode_NE (y : double) (double_of_Z 10000)) (Bnearbyint mode_NA) d_pi d_2pi d_pi2 d_pi2 d_degree eps_double tiny_double.
Definition with_library (l : libm ar_double) (X : outside) : outside :=
  Outside l (x_scale X) (x_long X) (x_fmod X) (x_acos X) (x_circle X) (x_au X) (x_max_range X) (x_find X) double_roots
    (x_graphic X) (x_centric X) (x_radius X) (x_eccentricity X) (x_mu X) (x_mu0 X) (x_cos_phase X) (x_file X) (x_header X) (x_geometry X).
Definition ortho_entry (prograde : bool) (o : option (option average * ortho_options)) (p : plane_type) : map_entry :=
  MapEntry "map.fits" None None [] [] "Earth" (given_radii (A := ar_double) (double_of_Z 6378) (double_of_Z 6378)) prograde
    None None (Some 16%Z) None None (T_ortho o) None (digit 4) (digit 2) (PlaneEntry None no_range p) [].
Definition ortho_run (prograde : bool) (o : option (option average * ortho_options)) (p : plane_type) : option (list (option Z)) :=
  first_run (with_library flat_library the_program) (ortho_entry prograde o p) the_cells.

(** ** A program with the real functions, rounded *)
Definition rounded (r : R) : double :=
  binary_normalize 53 1024 prec53 emax53 mode_NE (Ztrunc (scaled_mantissa radix2 (SpecFloat.fexp 53 1024) (rnd r)))
    (cexp radix2 (SpecFloat.fexp 53 1024) (rnd r)) false.
Lemma rounded_value r : Rabs r <= 1e200 -> is_finite (rounded r) = true /\ B2R (rounded r) = rnd r.
Proof.
  intros H. assert (G : generic_format radix2 (SpecFloat.fexp 53 1024) (rnd r)) by (apply generic_format_round; auto with typeclass_instances).
  unfold rounded. set (m := Ztrunc _). set (e := cexp _ _ _).
  assert (E : F2R (Float radix2 m e) = rnd r) by (symmetry; exact G).
  pose proof (binary_normalize_correct 53 1024 prec53 emax53 mode_NE m e false) as C. cbv beta zeta in C. rewrite E in C. cbn [round_mode] in C.
  rewrite (round_generic _ _ _ (rnd r)) in C by exact G. rewrite Rlt_bool_true in C by exact (rnd_fits r H).
  destruct C as (V & F & _). now split.
Qed.
Lemma rounded_near r : Rabs r <= 1e200 -> nearly (rounded r) r (u * Rabs r + eta).
Proof. intros H. destruct (rounded_value r H) as [F V]. split; [exact F|]. rewrite V. apply rnd_rel. Qed.
Lemma rounded_zero : B2R (rounded 0) = 0.
Proof. destruct (rounded_value 0) as [_ V]; [rewrite Rabs_R0; lra|]. rewrite V. apply round_0. auto with typeclass_instances. Qed.

Definition close_library_1 : libm ar_double :=
  Libm ar_double (fun x => rounded (sin (B2R (x : double)))) (fun x => rounded (cos (B2R (x : double)))) (fun x => x) (fun x => x)
    (fun x _ => rounded (B2R (x : double) ^ 2)) (fun x y => rounded (hypot (B2R (x : double)) (B2R (y : double))))
    (fun y x => rounded (if Rle_dec 0 (B2R (x : double)) then (1 - 3e-16) * atan2 (B2R (y : double)) (B2R x) else atan2 (B2R (y : double)) (B2R x)))
    (Bnearbyint mode_NA) d_pi d_2pi d_pi2 d_pi2 d_degree eps_double tiny_double.

Lemma atan2_within y x : Rabs (atan2 y x) <= PI /\ (0 <= x -> Rabs (atan2 y x) <= PI / 2).
Proof.
  pose proof PI_RGT_0 as P0. unfold atan2. pose proof (atan_bound (y / x)) as B.
  destruct (Rlt_bool_spec 0 x) as [H|H]; [split; [|intros _]; apply Rabs_le; lra|].
  destruct (Rlt_bool_spec x 0) as [K|K].
  - split; [|lra]. destruct (Rle_bool_spec 0 y) as [Y|Y]; apply Rabs_le.
    + assert (atan (y / x) <= 0). { rewrite <- atan_0. destruct (Rle_lt_or_eq_dec 0 y Y) as [Z|Z].
        - left. apply atan_increasing. unfold Rdiv. assert (/ x < 0) by (apply Rinv_lt_0_compat; exact K). nra.
        - rewrite <- Z. unfold Rdiv. rewrite Rmult_0_l. lra. }
      lra.
    + assert (0 < atan (y / x)). { rewrite <- atan_0. apply atan_increasing. unfold Rdiv. assert (/ x < 0) by (apply Rinv_lt_0_compat; exact K). nra. }
      lra.
  - destruct (Rlt_bool_spec 0 y); [|destruct (Rlt_bool_spec y 0)]; (split; [|intros _]; apply Rabs_le; lra).
Qed.

Lemma half_pi_double : 1.5707963267948965 <= B2R d_pi2.
Proof.
  destruct (parts d_pi2) as [[m e]|] eqn:P; vm_compute in P; [|discriminate P].
  destruct (parts_value d_pi2 _ _ P) as [F V]. injection P as <- <-. rewrite V. cbn -[IZR]. lra.
Qed.

Lemma close_1 : close_library close_library_1.
Proof.
  pose proof u_value as UV. pose proof eta_tiny as [T0 T]. pose proof pi_between as PB.
  constructor.
  - reflexivity.
  - intros x Fx Bx. cbn [l_sin close_library_1]. pose proof (SIN_bound (B2R x)) as S. split.
    + destruct (rounded_near (sin (B2R x))) as [F N]; [apply Rabs_le; lra|]. split; [exact F|]. eapply Rle_trans; [exact N|].
      assert (Rabs (sin (B2R x)) <= 1) by (apply Rabs_le; lra). rewrite UV. lra.
    + intros Z. rewrite Z, sin_0. apply rounded_zero.
  - intros x Fx Bx. cbn [l_cos close_library_1]. pose proof (COS_bound (B2R x)) as S.
    destruct (rounded_near (cos (B2R x))) as [F N]; [apply Rabs_le; lra|]. split; [exact F|]. eapply Rle_trans; [exact N|].
    assert (Rabs (cos (B2R x)) <= 1) by (apply Rabs_le; lra). rewrite UV. lra.
  - intros x Fx Bx. cbn [l_pow close_library_1]. split.
    + apply rounded_value. apply Rle_trans with 4; [|lra]. replace (B2R x ^ 2) with (B2R x * B2R x) by ring. rewrite Rabs_mult.
      apply Rle_trans with (2 * 2); [apply Rmult_le_compat; try apply Rabs_pos; assumption|lra].
    + intros Z. rewrite Z. replace (0 ^ 2) with 0 by ring. apply rounded_zero.
  - intros x y Fx Fy Bx By. cbn [l_hypot close_library_1]. set (h := hypot (B2R x) (B2R y)).
    assert (H0 : 0 <= h) by apply sqrt_pos.
    assert (Hb : h <= 2e10).
    { unfold h, hypot. rewrite <- (sqrt_square 2e10) by lra. apply sqrt_le_1_alt.
      assert (Q : forall p, Rabs p <= 1e10 -> p * p <= 1e10 * 1e10).
      { intros p Hp. rewrite <- (Rabs_pos_eq (p * p)) by apply Rle_0_sqr. rewrite Rabs_mult. apply Rmult_le_compat; try apply Rabs_pos; assumption. }
      pose proof (Q _ Bx). pose proof (Q _ By). lra. }
    destruct (rounded_near h) as [F N]; [apply Rabs_le; lra|]. rewrite (Rabs_pos_eq h) in N by exact H0. split.
    + split; [exact F|]. eapply Rle_trans; [exact N|]. rewrite UV. lra.
    + destruct (rounded_value h) as [_ V]; [apply Rabs_le; lra|]. rewrite V. rewrite <- (round_0 radix2 (SpecFloat.fexp 53 1024) ZnearestE).
      apply round_le; auto with typeclass_instances.
  - intros y x Fy Fx. cbn [l_atan2 close_library_1]. cbv zeta. destruct (atan2_within (B2R y) (B2R x)) as [B1 B2]. set (t := atan2 (B2R y) (B2R x)) in *.
    destruct (Rle_dec 0 (B2R x)) as [X|X].
    + specialize (B2 X). assert (Bs : Rabs ((1 - 3e-16) * t) <= 1.5707963267948962).
      { rewrite Rabs_mult, (Rabs_pos_eq (1 - 3e-16)) by lra. lra. }
      destruct (rounded_near ((1 - 3e-16) * t)) as [F N]; [lra|]. set (v := rounded _) in *.
      assert (N' : Rabs (B2R v - (1 - 3e-16) * t) <= 2e-16). { eapply Rle_trans; [exact N|]. rewrite UV. lra. }
      pose proof half_pi_double as HP. abs N'. abs Bs. abs B2.
      split; [exact F|]. split; [apply Rabs_le; lra|]. split; [|lra]. intros _. split; [apply Rabs_le; lra|]. intros _. apply Rabs_le. lra.
    + destruct (rounded_near t) as [F N]; [lra|]. set (v := rounded _) in *.
      assert (N' : Rabs (B2R v - t) <= 1e-15). { eapply Rle_trans; [exact N|]. rewrite UV. lra. }
      split; [exact F|]. assert (N2 := N'). abs N2. abs B1. split; [apply Rabs_le; lra|]. split; [intros _; split; [exact N'|lra]|].
      intros Y0 X0. left. assert (t = PI).
      { unfold t, atan2. rewrite Y0, (Rlt_bool_false 0), (Rlt_bool_true _ 0), (Rle_bool_true 0 0) by lra. unfold Rdiv. rewrite Rmult_0_l, atan_0. lra. }
      rewrite <- H. exact N'.
Qed.
Lemma close_ieee : ieee (with_library close_library_1 the_program).
Proof. constructor; try reflexivity. exact remainder_spec. Qed.

Lemma plain_case : plain_view (double_of_Z 6378) (double_of_Z 6378) (double_of_Z 40) (double_of_Z (-1)) default_center.
Proof.
  destruct (double_of_Z_exact 6378 ltac:(lia)) as [F1 E1]. destruct (double_of_Z_exact 40 ltac:(lia)) as [F2 E2]. destruct (double_of_Z_exact (-1) ltac:(lia)) as [F3 E3].
  constructor; rewrite ?E1, ?E2, ?E3; try assumption; try lra.
  - rewrite Rabs_pos_eq; lra.
  - split; [exact F3|lra].
  - exact I.
Qed.
