(** The roots of quadratic equations in doubles: used by the proofs of C116. *)
From Coq Require Import List ZArith Reals Bool Lra Lia Psatz.
From Flocq Require Import Core BinarySingleNaN Relative.
From Verif Require Import Base BaseFacts Flt FltFacts Num Proj_Model Virtual_Proofs RunAngle_Proofs Roots_Model Entry_Proofs OrthoDouble_Proofs.
Import ListNotations.
Open Scope R_scope.

#[local] Existing Instance prec53.
#[local] Existing Instance emax53.
Local Ltac abs H := apply Rabs_le_inv in H.
Local Notation rnd := (round radix2 (SpecFloat.fexp 53 1024) ZnearestE).
#[local] Instance valid53_roots : Valid_exp (SpecFloat.fexp 53 1024) := fexp_correct 53 1024 eq_refl.


(** ** The roots *)
Lemma rel_chain prev next v k : 0 <= v -> 0 <= k <= 100 ->
  Rabs (prev - v) <= k * u * v -> Rabs (next - prev) <= 1.1 * u * Rabs prev -> Rabs (next - v) <= (k + 1.2) * u * v.
Proof.
  intros V K H N. pose proof u_bounds as U.
  assert (Ku : 0 <= k * u <= 1e-7) by (split; nra). assert (Kv : k * u * v <= 1e-7 * v) by (apply Rmult_le_compat_r; lra).
  assert (P : Rabs prev <= 1.0000001 * v).
  { replace prev with (prev - v + v) by ring. eapply Rle_trans; [apply Rabs_triang|]. rewrite (Rabs_pos_eq v) by lra. lra. }
  replace (next - v) with (next - prev + (prev - v)) by ring. eapply Rle_trans; [apply Rabs_triang|].
  assert (1.1 * u * Rabs prev <= 1.1 * u * (1.0000001 * v)) by (apply Rmult_le_compat_l; lra).
  assert (0 <= u * v) by (apply Rmult_le_pos; lra). nra.
Qed.
Lemma rel_square p v k : 0 <= v -> 0 <= k <= 100 -> Rabs (p - v) <= k * u * v -> Rabs (p * p - v * v) <= (2 * k + 1) * u * (v * v).
Proof.
  intros V K H. pose proof u_value as UV. pose proof u_bounds as U. replace (p * p - v * v) with ((p - v) * (p - v) + 2 * v * (p - v)) by ring.
  eapply Rle_trans; [apply Rabs_triang|]. rewrite (Rabs_mult (p - v)), (Rabs_mult (2 * v)), (Rabs_pos_eq (2 * v)) by lra.
  assert (A1 : 2 * v * Rabs (p - v) <= 2 * v * (k * u * v)) by (apply Rmult_le_compat_l; lra).
  assert (A2 : Rabs (p - v) * Rabs (p - v) <= k * u * v * (k * u * v)) by (apply Rmult_le_compat; try apply Rabs_pos; assumption).
  assert (V2 : 0 <= v * v) by nra. assert (k * u * (k * u) <= 1 * u) by (rewrite UV; nra).
  assert (k * u * (k * u) * (v * v) <= 1 * u * (v * v)) by (apply Rmult_le_compat_r; lra). nra.
Qed.
Lemma value_zero (x : double) : is_finite x = true -> B2R x = 0 -> exists s, x = B754_zero s.
Proof.
  destruct x as [s|s| |s m e B]; intros F H; try discriminate; [eauto|]. exfalso. cbn [B2R] in H.
  apply eq_0_F2R in H. destruct s; discriminate.
Qed.
Lemma some_pair {A B : Type} (a c : A) (b d : B) : Some (a, b) = Some (c, d) -> a = c /\ b = d.
Proof. intros H. now injection H. Qed.
Lemma sgn_zero (x : double) : is_finite x = true -> B2R x = 0 -> double_sgn x = 1%Z.
Proof. intros F H. destruct (value_zero x F H) as [s ->]. destruct s; reflexivity. Qed.

Lemma sqrt_near (x : double) : is_finite x = true -> B2R x = 0 \/ 1e-100 <= B2R x ->
  is_finite (Bsqrt mode_NE x) = true /\ Rabs (B2R (Bsqrt mode_NE x) - sqrt (B2R x)) <= 1.1 * u * Rabs (sqrt (B2R x)).
Proof.
  intros F B. destruct (Bsqrt_correct 53 1024 _ _ mode_NE x) as (E & Fs & _). cbn [round_mode] in E. split.
  - rewrite Fs. destruct x as [s|s| |[] m e Bd]; try discriminate; try reflexivity. exfalso. cbn [B2R] in B.
    assert (F2R (Float radix2 (cond_Zopp true (Zpos m)) e) < 0) by (apply F2R_lt_0; reflexivity). lra.
  - rewrite E. pose proof (rnd_rel (sqrt (B2R x))) as R. destruct B as [B|B].
    + rewrite B, sqrt_0, round_0, Rminus_0_r, Rabs_R0 by apply valid_rnd_N. lra.
    + assert (1e-50 <= sqrt (B2R x)).
      { replace 1e-50 with (sqrt (1e-50 * 1e-50)) by (apply sqrt_square; lra). apply sqrt_le_1; lra. }
      rewrite (Rabs_pos_eq (sqrt _)) in * by lra. pose proof eta_tiny as [_ T]. pose proof u_value as UV.
      assert (1e-120 <= 0.1 * u * 1e-50) by (rewrite UV; lra). assert (0.1 * u * 1e-50 <= 0.1 * u * sqrt (B2R x)) by (apply Rmult_le_compat_l; [rewrite UV|]; lra). lra.
Qed.

Section Roots.
Variables CA CB CC : double.
Hypothesis FA : is_finite CA = true.
Hypothesis FB : is_finite CB = true.
Hypothesis FC : is_finite CC = true.
Hypothesis ZB : B2R CB = 0.
Local Notation g := (B2R CA).
Local Notation h := (- B2R CC).
Hypothesis HA : 1e-7 <= g <= 1e19.
Hypothesis HC : B2R CC = 0 \/ 1e-60 <= Rabs (B2R CC).
Hypothesis HC' : Rabs (B2R CC) <= 1e80.
Local Notation discriminant := (Bminus mode_NE (Bmult mode_NE CB CB) (Bmult mode_NE (Bmult mode_NE (double_of_Z 4) CA) CC)).

Lemma discriminant_near : is_finite discriminant = true /\ Rabs (B2R discriminant - 4 * g * h) <= 2.4 * u * (4 * g * Rabs h) /\
  (B2R CC = 0 -> B2R discriminant = 0).
Proof.
  pose proof eta_tiny as [T0 T]. pose proof u_value as UV. pose proof u_bounds as U.
  destruct (zero_product CB CB FB FB (or_introl ZB)) as [Fb Eb].
  destruct (double_of_Z_exact 4 ltac:(lia)) as [F4 E4].
  destruct (mult_rel (double_of_Z 4) CA F4 FA) as [Ff Ef]. { rewrite E4. apply Rabs_le. lra. }
  rewrite E4 in Ef. rewrite (Rabs_pos_eq (4 * g)) in Ef by lra. set (f := Bmult mode_NE (double_of_Z 4) CA) in *.
  assert (Df : Rabs (B2R f - 4 * g) <= 1.1 * u * (4 * g)).
  { assert (1e-120 <= 0.1 * u * (4 * 1e-7)) by (rewrite UV; lra). assert (0.1 * u * (4 * 1e-7) <= 0.1 * u * (4 * g)) by (apply Rmult_le_compat_l; [rewrite UV|]; lra). lra. }
  assert (Bf : 0 <= B2R f <= 1e20). { abs Df. rewrite UV in Df. lra. }
  destruct (mult_rel f CC Ff FC) as [Ft Et]. { rewrite Rabs_mult, (Rabs_pos_eq (B2R f)) by lra. apply Rle_trans with (1e20 * 1e80); [apply Rmult_le_compat; try apply Rabs_pos; lra|lra]. }
  set (t := Bmult mode_NE f CC) in *. destruct (zero_minus _ t Fb Ft Eb) as [Fd Ed]. split; [exact Fd|]. rewrite Ed.
  assert (Z : B2R CC = 0 -> B2R t = 0). { intros Z. now destruct (zero_product f CC Ff FC (or_intror Z)). }
  split; [|intros H; rewrite (Z H); ring].
  rewrite Rabs_Ropp. replace (- B2R t - 4 * g * h) with (- (B2R t - 4 * g * B2R CC)) by ring. rewrite Rabs_Ropp.
  destruct HC as [H0|H0]; [rewrite (Z H0), H0, !Rmult_0_r, Rminus_eq_0, Rabs_R0; lra|].
  set (k := B2R CC) in *. set (K := Rabs k) in *. assert (GK : 1e-67 <= g * K) by (apply Rle_trans with (1e-7 * 1e-60); [lra|apply Rmult_le_compat; lra]).
  assert (D1 : Rabs (B2R f * k - 4 * g * k) <= 1.1 * u * (4 * g * K)).
  { rewrite <- Rmult_minus_distr_r, Rabs_mult. fold K. replace (1.1 * u * (4 * g * K)) with (1.1 * u * (4 * g) * K) by ring.
    apply Rmult_le_compat_r; [apply Rabs_pos|exact Df]. }
  assert (D2 : Rabs (B2R f * k) <= 1.01 * (4 * g * K)).
  { replace (B2R f * k) with (B2R f * k - 4 * g * k + 4 * g * k) by ring. eapply Rle_trans; [apply Rabs_triang|].
    rewrite (Rabs_mult (4 * g) k), (Rabs_pos_eq (4 * g)) by lra. fold K. rewrite UV in D1. lra. }
  assert (D3 : u * Rabs (B2R f * k) <= u * (1.01 * (4 * g * K))) by (apply Rmult_le_compat_l; lra).
  assert (D4 : 1e-120 <= 0.1 * u * (4 * g * K)). { rewrite UV. lra. }
  replace (B2R t - 4 * g * k) with (B2R t - B2R f * k + (B2R f * k - 4 * g * k)) by ring. eapply Rle_trans; [apply Rabs_triang|]. lra.
Qed.

Lemma roots_none : double_roots CA CB CC = None -> 0 < B2R CC.
Proof.
  destruct discriminant_near as (Fd & Nd & Zd). unfold double_roots. cbv zeta. destruct (double_of_Z_exact 0 ltac:(lia)) as [F0 E0].
  destruct (flt discriminant (double_of_Z 0)) eqn:L; [intros _|discriminate].
  rewrite flt_spec in L by (now apply finite_not_nan). rewrite !fval_finite, E0 in L by assumption. revert L; case Rlt_bool_spec; [intros L _|discriminate].
  apply Rnot_le_lt. intros H. rewrite (Rabs_pos_eq h) in Nd by lra. pose proof u_value as UV. abs Nd.
  assert (0 <= g * h) by (apply Rmult_le_pos; lra). rewrite UV in Nd. lra.
Qed.

Lemma roots_some r1 r2 : double_roots CA CB CC = Some (r1, r2) -> B2R CC <= 0 /\
  let y := if flt r2 r1 then r2 else r1 in
  is_finite y = true /\ B2R y <= 0 /\ Rabs (g * (B2R y * B2R y) - h) <= 12 * u * h.
Proof.
  destruct discriminant_near as (Fd & Nd & Zd). unfold double_roots. cbv zeta. destruct (double_of_Z_exact 0 ltac:(lia)) as [F0 E0].
  set (D := discriminant) in *.
  pose proof eta_tiny as [T0 T]. pose proof u_value as UV. pose proof u_bounds as U.
  destruct (flt D (double_of_Z 0)) eqn:L; [discriminate|]. intros E. apply some_pair in E. destruct E as [E1 E2].
  assert (D0 : 0 <= B2R D).
  { apply Rnot_lt_le. intros H. enough (flt D (double_of_Z 0) = true) by congruence. rewrite flt_spec by (now apply finite_not_nan).
    rewrite !fval_finite, E0 by assumption. now apply Rlt_bool_true. }
  assert (C0 : B2R CC <= 0).
  { apply Rnot_lt_le. intros H. destruct HC as [Z|H1]; [lra|]. rewrite Rabs_Ropp, (Rabs_pos_eq (B2R CC)) in * by lra.
    assert (1e-67 <= g * B2R CC) by (apply Rle_trans with (1e-7 * 1e-60); [lra|apply Rmult_le_compat; lra]). abs Nd. rewrite UV in Nd. lra. }
  split; [exact C0|]. rewrite (Rabs_pos_eq h) in Nd by lra.
  assert (H0 : 0 <= h <= 1e80). { abs HC'. lra. }
  assert (GH0 : 0 <= g * h <= 1e99) by (split; [apply Rmult_le_pos; lra|apply Rle_trans with (1e19 * 1e80); [apply Rmult_le_compat; lra|lra]]).
  assert (DB : B2R D <= 1e100). { abs Nd. rewrite UV in Nd. lra. }
  assert (HC2 : h = 0 \/ 1e-60 <= h). { destruct HC as [Z|H1]; [left; lra|right]. rewrite Rabs_left1 in H1; lra. }
  assert (DL : B2R D = 0 \/ 1e-67 <= B2R D).
  { destruct HC2 as [Z|H1]; [left; apply Zd; lra|right].
    assert (1e-67 <= g * h) by (apply Rle_trans with (1e-7 * 1e-60); [lra|apply Rmult_le_compat; lra]). abs Nd. rewrite UV in Nd. lra. }
  destruct (sqrt_near D Fd ltac:(lra)) as [Fs Es]. set (sq := Bsqrt mode_NE D) in *.
  set (A := sqrt (B2R D)) in *. assert (A0 : 0 <= A) by apply sqrt_pos. assert (AA : A * A = B2R D) by (apply sqrt_sqrt; exact D0).
  rewrite (Rabs_pos_eq A) in Es by exact A0.
  assert (AB : A <= 1e50). { apply Rnot_lt_le. intros H. assert (1e50 * 1e50 < A * A) by nra. lra. }
  assert (AL : A = 0 \/ 1e-34 <= A).
  { destruct DL as [Z|Z]; [left; nra|right]. apply Rnot_lt_le. intros H. assert (A * A < 1e-34 * 1e-34) by nra. lra. }
  assert (SB : 0 <= B2R sq <= 2e50). { abs Es. rewrite UV in Es. lra. }
  rewrite (sgn_zero CB FB ZB) in E1, E2. destruct (double_of_Z_exact 1 ltac:(lia)) as [F1 V1]. destruct (double_of_Z_exact 2 ltac:(lia)) as [F2 V2].
  assert (Fm : is_finite (Bmult mode_NE (double_of_Z 1) sq) = true /\ B2R (Bmult mode_NE (double_of_Z 1) sq) = B2R sq).
  { destruct (mult_round (double_of_Z 1) sq F1 Fs) as [F E]; rewrite V1, Rmult_1_l, rnd_double in *; [apply double_small|now split]. }
  destruct Fm as [Fm Em]. destruct (zero_plus CB _ FB Fm ZB) as [Fp Ep]. rewrite Em in Ep.
  set (b := Bplus mode_NE CB _) in *.
  assert (Fo : is_finite (Bopp b) = true) by now rewrite is_finite_Bopp. assert (Eo : B2R (Bopp b) = - B2R sq) by now rewrite B2R_Bopp, Ep.
  destruct (div_rel (Bopp b) (double_of_Z 2) Fo) as [Fq Eq]; [rewrite V2; lra| |].
  { rewrite V2, Eo. apply Rabs_le. lra. }
  rewrite V2, Eo in Eq. set (q := Bdiv mode_NE (Bopp b) (double_of_Z 2)) in *.
  (* the divisions *)
  assert (SL : B2R sq = 0 \/ 1e-35 <= B2R sq).
  { destruct AL as [Z|Z]; [left|right; abs Es; rewrite UV in Es; lra]. rewrite Z in Es. rewrite Rmult_0_r, Rminus_0_r in Es.
    pose proof (Rabs_pos (B2R sq)). assert (Rabs (B2R sq) = 0) by lra. destruct (Req_dec (B2R sq) 0); [assumption|]. pose proof (Rabs_no_R0 _ H2). lra. }
  assert (Eq' : Rabs (- B2R q - B2R sq / 2) <= 1.1 * u * Rabs (B2R sq / 2)).
  { replace (- B2R q - B2R sq / 2) with (- (B2R q - - B2R sq / 2)) by field. rewrite Rabs_Ropp. destruct SL as [Z|Z].
    - destruct (div_round (Bopp b) (double_of_Z 2) Fo) as [_ Q]; [rewrite V2; lra|rewrite V2, Eo, Z; replace (-0 / 2) with 0 by field; rewrite round_0 by apply valid_rnd_N; rewrite Rabs_R0; apply bpow_gt_0|].
      fold q in Q. rewrite V2, Eo, Z in Q. replace (-0 / 2) with 0 in Q by field. rewrite round_0 in Q by apply valid_rnd_N.
      rewrite Q, Z. replace (0 - -0 / 2) with 0 by field. rewrite Rabs_R0. replace (0 / 2) with 0 by field. rewrite Rabs_R0. lra.
    - replace (Rabs (- B2R sq / 2)) with (B2R sq / 2) in Eq by (rewrite Rabs_left1; lra). rewrite (Rabs_pos_eq (B2R sq / 2)) by lra.
      assert (1e-120 <= 0.1 * u * (B2R sq / 2)) by (rewrite UV; lra). lra. }
  rewrite (Rabs_pos_eq (B2R sq / 2)) in Eq' by lra.
  assert (QB : 0 <= - B2R q <= 2e50) by (abs Eq'; rewrite UV in Eq'; lra).
  assert (QL : B2R q = 0 \/ 1e-36 <= - B2R q).
  { destruct SL as [Z|Z]; [left|right; abs Eq'; rewrite UV in Eq'; lra]. rewrite Z in Eq'. abs Eq'. lra. }
  assert (IG : 1e-19 <= / g <= 1e7).
  { split; [replace 1e-19 with (/ 1e19) by lra; apply Rinv_le; lra|replace 1e7 with (/ 1e-7) by lra; apply Rinv_le; lra]. }
  assert (QG : 0 <= - B2R q * / g <= 2e57) by (split; [apply Rmult_le_pos; lra|apply Rle_trans with (2e50 * 1e7); [apply Rmult_le_compat; lra|lra]]).
  destruct (div_rel q CA Fq) as [F3 E3]; [lra| |].
  { unfold Rdiv. rewrite <- Rabs_Ropp. replace (- (B2R q * / g)) with (- B2R q * / g) by ring. rewrite Rabs_pos_eq; lra. }
  rewrite E1 in F3, E3.
  assert (E3' : Rabs (- B2R r1 - - B2R q * / g) <= 1.1 * u * (- B2R q * / g)).
  { replace (- B2R r1 - - B2R q * / g) with (- (B2R r1 - B2R q / g)) by (unfold Rdiv; ring). rewrite Rabs_Ropp. destruct QL as [Z|Z].
    - destruct (div_round q CA Fq) as [_ Q]; [lra|rewrite Z; replace (0 / g) with 0 by (field; lra); rewrite round_0 by apply valid_rnd_N; rewrite Rabs_R0; apply bpow_gt_0|].
      rewrite E1, Z in Q. replace (0 / g) with 0 in Q by (field; lra). rewrite round_0 in Q by apply valid_rnd_N.
      rewrite Q, Z. replace (0 - 0 / g) with 0 by (field; lra). rewrite Rabs_R0. replace (-0 * / g) with 0 by ring. lra.
    - replace (Rabs (B2R q / g)) with (- B2R q * / g) in E3 by (rewrite <- (Rabs_pos_eq (- B2R q * / g)) by lra; rewrite <- (Rabs_Ropp (B2R q / g)); f_equal; unfold Rdiv; ring).
      assert (1e-55 <= - B2R q * / g) by (apply Rle_trans with (1e-36 * 1e-19); [lra|apply Rmult_le_compat; lra]).
      assert (1e-120 <= 0.1 * u * (- B2R q * / g)) by (rewrite UV; lra). lra. }
  (* the chain *)
  set (v := A / 2 * / g). assert (V0 : 0 <= v) by (unfold v; apply Rmult_le_pos; lra).
  assert (K1 : Rabs (B2R sq / 2 * / g - v) <= 1.1 * u * v).
  { unfold v. replace (B2R sq / 2 * / g - A / 2 * / g) with ((B2R sq - A) * (/ 2 * / g)) by (field; lra).
    rewrite Rabs_mult, (Rabs_pos_eq (/ 2 * / g)) by (apply Rmult_le_pos; lra). replace (1.1 * u * (A / 2 * / g)) with (1.1 * u * A * (/ 2 * / g)) by (unfold Rdiv; ring).
    apply Rmult_le_compat_r; [apply Rmult_le_pos; lra|exact Es]. }
  assert (K2 : Rabs (- B2R q * / g - v) <= (1.1 + 1.2) * u * v).
  { apply rel_chain with (B2R sq / 2 * / g); try lra. rewrite <- Rmult_minus_distr_r, !Rabs_mult, (Rabs_pos_eq (/ g)) by lra.
    rewrite (Rabs_pos_eq (B2R sq / 2)) by lra. rewrite <- Rmult_assoc. apply Rmult_le_compat_r; lra. }
  assert (K3 : Rabs (- B2R r1 - v) <= (1.1 + 1.2 + 1.2) * u * v).
  { apply rel_chain with (- B2R q * / g); try lra. rewrite (Rabs_pos_eq (- B2R q * / g)) by lra. exact E3'. }
  pose proof (rel_square _ v (1.1 + 1.2 + 1.2) V0 ltac:(lra) K3) as K4.
  assert (Y0 : B2R r1 <= 0). { abs K3. rewrite UV in K3. lra. }
  (* which one *)
  assert (W : flt r2 r1 = false).
  { destruct QL as [Z|Z].
    - assert (h = 0).
      { destruct HC2 as [Zh|Zh]; [exact Zh|exfalso]. assert (B2R sq = 0). { rewrite Z in Eq'. abs Eq'. rewrite UV in Eq'. lra. }
        assert (A = 0). { rewrite H in Es. abs Es. rewrite UV in Es. lra. }
        assert (1e-67 <= g * h) by (apply Rle_trans with (1e-7 * 1e-60); [lra|apply Rmult_le_compat; lra]).
        rewrite <- AA, H1 in Nd. abs Nd. rewrite UV in Nd. lra. }
      destruct (value_zero CC FC ltac:(lra)) as [s1 Z1]. destruct (value_zero q Fq Z) as [s2 Z2]. rewrite <- E2, Z1, Z2.
      reflexivity.
    - assert (Q0 : 0 <= B2R CC / B2R q <= 1e116).
      { replace (B2R CC / B2R q) with (h * / - B2R q) by (field; lra). assert (0 < / - B2R q <= 1e36).
        { split; [apply Rinv_0_lt_compat; lra|]. replace 1e36 with (/ 1e-36) by lra. apply Rinv_le; lra. }
        split; [apply Rmult_le_pos; lra|]. apply Rle_trans with (1e80 * 1e36); [apply Rmult_le_compat; lra|lra]. }
      destruct (div_round CC q FC) as [F4 E4]; [lra|apply rnd_fits; apply Rabs_le; lra|]. rewrite E2 in F4, E4.
      assert (0 <= B2R r2). { rewrite E4, <- (round_0 radix2 (SpecFloat.fexp 53 1024) ZnearestE). apply round_le; [apply valid53_roots|apply valid_rnd_N|lra]. }
      apply flt_le; try now apply finite_not_nan. rewrite !fval_finite by assumption. lra. }
  rewrite W. split; [exact F3|]. split; [exact Y0|].
  replace (B2R r1 * B2R r1) with (- B2R r1 * - B2R r1) by ring.
  assert (VV : g * (v * v) = B2R D * / (4 * g)). { unfold v. replace (g * (A / 2 * / g * (A / 2 * / g))) with (A * A * / (4 * g)) by (field; lra). now rewrite AA. }
  assert (ID : 0 < / (4 * g)) by (apply Rinv_0_lt_compat; lra).
  assert (DG : Rabs (B2R D * / (4 * g) - h) <= 2.4 * u * h).
  { replace (B2R D * / (4 * g) - h) with ((B2R D - 4 * g * h) * / (4 * g)) by (field; lra). rewrite Rabs_mult, (Rabs_pos_eq (/ (4 * g))) by lra.
    replace (2.4 * u * h) with (2.4 * u * (4 * g * h) * / (4 * g)) by (generalize 2.4; intros; field; lra). apply Rmult_le_compat_r; lra. }
  assert (G5 : Rabs (g * (- B2R r1 * - B2R r1) - g * (v * v)) <= (2 * (1.1 + 1.2 + 1.2) + 1) * u * (g * (v * v))).
  { rewrite <- Rmult_minus_distr_l, Rabs_mult, (Rabs_pos_eq g) by lra.
    replace ((2 * (1.1 + 1.2 + 1.2) + 1) * u * (g * (v * v))) with (g * ((2 * (1.1 + 1.2 + 1.2) + 1) * u * (v * v))) by ring.
    apply Rmult_le_compat_l; [lra|exact K4]. }
  rewrite VV in G5. set (w := B2R D * / (4 * g)) in *.
  assert (UH : 0 <= u * h) by (apply Rmult_le_pos; lra).
  assert (w <= 1.01 * h). { abs DG. rewrite UV in DG. lra. }
  assert (u * w <= u * (1.01 * h)) by (apply Rmult_le_compat_l; lra).
  replace (g * (- B2R r1 * - B2R r1) - h) with (g * (- B2R r1 * - B2R r1) - w + (w - h)) by ring. eapply Rle_trans; [apply Rabs_triang|]. lra.
Qed.
End Roots.
