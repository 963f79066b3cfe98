(** Rounding errors of orthographic maps: used by the proofs of C116. *)
From Coq Require Import List ZArith Reals Bool Lra Lia Psatz.
From Flocq Require Import Core BinarySingleNaN Relative.
From Verif Require Import Base BaseFacts Flt FltFacts Num Proj_Model Virtual_Proofs RunAngle_Proofs Roots_Model.
Import ListNotations.
Open Scope R_scope.

#[local] Existing Instance prec53.
#[local] Existing Instance emax53.
Local Ltac abs H := apply Rabs_le_inv in H.
Local Notation rnd := (round radix2 (SpecFloat.fexp 53 1024) ZnearestE).
#[local] Instance valid53_ortho : Valid_exp (SpecFloat.fexp 53 1024) := fexp_correct 53 1024 eq_refl.

(** ** Single operations *)
Lemma eta_tiny : 0 < eta <= 1e-120.
Proof.
  split; [apply bpow_gt_0|]. apply Rle_trans with (bpow radix2 (-400)); [apply bpow_le; lia|]. change (bpow radix2 (-400)) with (/ IZR (2 ^ 400)).
  apply Rle_trans with (/ IZR (10 ^ 120)); [apply Rinv_le; [apply IZR_lt; reflexivity|apply IZR_le; vm_compute; discriminate]|].
  change (10 ^ 120)%Z with 1000000000000000000000000000000000000000000000000000000000000000000000000000000000000000000000000000000000000000000000000%Z. lra.
Qed.
Lemma rnd_rel x : Rabs (rnd x - x) <= u * Rabs x + eta.
Proof. rewrite Rmult_comm. apply rnd_err. lra. Qed.
Lemma rnd_fits x : Rabs x <= 1e200 -> Rabs (rnd x) < bpow radix2 1024.
Proof.
  intros H. pose proof (rnd_rel x) as E. pose proof eta_tiny as [_ T]. pose proof u_bounds as U.
  assert (Rabs (rnd x) <= 2e200).
  { replace (rnd x) with (rnd x - x + x) by ring. eapply Rle_trans; [apply Rabs_triang|]. pose proof (Rabs_pos x). nra. }
  eapply Rle_lt_trans; [eassumption|]. apply Rlt_trans with (bpow radix2 700); [|apply bpow_lt; lia].
  change (bpow radix2 700) with (IZR (2 ^ 700)). apply Rlt_trans with (IZR (10 ^ 201)).
  - replace 2e200 with (IZR (2 * 10 ^ 200)) by (change (2 * 10 ^ 200)%Z with 200000000000000000000000000000000000000000000000000000000000000000000000000000000000000000000000000000000000000000000000000000000000000000000000000000000000000000000000000000000000000000000000000000000%Z; lra).
    apply IZR_lt. reflexivity.
  - apply IZR_lt. reflexivity.
Qed.
Lemma mult_rel (x y : double) : is_finite x = true -> is_finite y = true -> Rabs (B2R x * B2R y) <= 1e200 ->
  is_finite (Bmult mode_NE x y) = true /\ Rabs (B2R (Bmult mode_NE x y) - B2R x * B2R y) <= u * Rabs (B2R x * B2R y) + eta.
Proof. intros Fx Fy H. destruct (mult_round x y Fx Fy (rnd_fits _ H)) as [F ->]. split; [exact F|apply rnd_rel]. Qed.
Lemma plus_rel (x y : double) : is_finite x = true -> is_finite y = true -> Rabs (B2R x + B2R y) <= 1e200 ->
  is_finite (Bplus mode_NE x y) = true /\ Rabs (B2R (Bplus mode_NE x y) - (B2R x + B2R y)) <= u * Rabs (B2R x + B2R y) + eta.
Proof. intros Fx Fy H. destruct (plus_round x y Fx Fy (rnd_fits _ H)) as [F ->]. split; [exact F|apply rnd_rel]. Qed.
Lemma minus_round (x y : double) : is_finite x = true -> is_finite y = true -> Rabs (B2R x - B2R y) <= 1e200 ->
  is_finite (Bminus mode_NE x y) = true /\ B2R (Bminus mode_NE x y) = rnd (B2R x - B2R y).
Proof.
  intros Fx Fy H. pose proof (Bminus_correct 53 1024 _ _ mode_NE x y Fx Fy) as C. cbn [round_mode] in C.
  rewrite Rlt_bool_true in C by exact (rnd_fits _ H). destruct C as (-> & F & _). now split.
Qed.
Lemma minus_rel (x y : double) : is_finite x = true -> is_finite y = true -> Rabs (B2R x - B2R y) <= 1e200 ->
  is_finite (Bminus mode_NE x y) = true /\ Rabs (B2R (Bminus mode_NE x y) - (B2R x - B2R y)) <= u * Rabs (B2R x - B2R y) + eta.
Proof. intros Fx Fy H. destruct (minus_round x y Fx Fy H) as [F ->]. split; [exact F|apply rnd_rel]. Qed.
Lemma div_rel (x y : double) : is_finite x = true -> B2R y <> 0 -> Rabs (B2R x / B2R y) <= 1e200 ->
  is_finite (Bdiv mode_NE x y) = true /\ Rabs (B2R (Bdiv mode_NE x y) - B2R x / B2R y) <= u * Rabs (B2R x / B2R y) + eta.
Proof. intros Fx Fy H. destruct (div_round x y Fx Fy (rnd_fits _ H)) as [F ->]. split; [exact F|apply rnd_rel]. Qed.
Lemma rnd_double (x : double) : rnd (B2R x) = B2R x.
Proof. apply round_generic; [apply valid_rnd_N|apply generic_format_B2R]. Qed.
Lemma double_small (x : double) : Rabs (B2R x) < bpow radix2 1024.
Proof. apply abs_B2R_lt_emax. Qed.

(** Products with and sums of a zero. *)
Lemma zero_product (x y : double) : is_finite x = true -> is_finite y = true -> B2R x = 0 \/ B2R y = 0 ->
  is_finite (Bmult mode_NE x y) = true /\ B2R (Bmult mode_NE x y) = 0.
Proof.
  intros Fx Fy Z. assert (P : B2R x * B2R y = 0) by (destruct Z as [-> | ->]; ring).
  destruct (mult_round x y Fx Fy) as [F E]; rewrite P, round_0 in * by apply valid_rnd_N; [rewrite Rabs_R0; apply bpow_gt_0|now split].
Qed.
Lemma zero_plus (x y : double) : is_finite x = true -> is_finite y = true -> B2R x = 0 ->
  is_finite (Bplus mode_NE x y) = true /\ B2R (Bplus mode_NE x y) = B2R y.
Proof.
  intros Fx Fy Z. destruct (plus_round x y Fx Fy) as [F E]; rewrite Z, Rplus_0_l, rnd_double in *; [apply double_small|now split].
Qed.
Lemma minus_zero (x y : double) : is_finite x = true -> is_finite y = true -> B2R y = 0 ->
  is_finite (Bminus mode_NE x y) = true /\ B2R (Bminus mode_NE x y) = B2R x.
Proof.
  intros Fx Fy Z. pose proof (Bminus_correct 53 1024 _ _ mode_NE x y Fx Fy) as C. cbn [round_mode] in C.
  rewrite Z, Rminus_0_r, rnd_double, Rlt_bool_true in C by apply double_small. destruct C as (-> & F & _). now split.
Qed.
Lemma zero_minus (x y : double) : is_finite x = true -> is_finite y = true -> B2R x = 0 ->
  is_finite (Bminus mode_NE x y) = true /\ B2R (Bminus mode_NE x y) = - B2R y.
Proof.
  intros Fx Fy Z. pose proof (Bminus_correct 53 1024 _ _ mode_NE x y Fx Fy) as C. cbn [round_mode] in C.
  rewrite Z, Rminus_0_l, round_NE_opp, rnd_double, Rlt_bool_true in C by (rewrite Rabs_Ropp; apply double_small).
  destruct C as (-> & F & _). now split.
Qed.

(** A rounded operation after others. *)
Lemma step_rel prev next v k s s' : 0 <= v -> 0 <= k <= 100 -> 0 <= s ->
  Rabs (prev - v) <= k * u * v + s -> Rabs (next - prev) <= u * Rabs prev + s' ->
  Rabs (next - v) <= (k + 1.1) * u * v + (2 * s + s').
Proof.
  intros V K S H N. pose proof u_value as UV. pose proof u_bounds as U.
  assert (P : Rabs prev <= v + (k * u * v + s)).
  { replace prev with (prev - v + v) by ring. eapply Rle_trans; [apply Rabs_triang|]. rewrite (Rabs_pos_eq v) by lra. lra. }
  replace (next - v) with (next - prev + (prev - v)) by ring. eapply Rle_trans; [apply Rabs_triang|].
  assert (u * Rabs prev <= u * (v + (k * u * v + s))) by (apply Rmult_le_compat_l; lra).
  assert (k * u <= 1e-7) by nra. assert (k * u * v <= 1e-7 * v) by (apply Rmult_le_compat_r; lra).
  assert (u * (k * u * v) <= u * (1e-7 * v)) by (apply Rmult_le_compat_l; lra).
  assert (u * s <= 1 * s) by (apply Rmult_le_compat_r; lra). assert (0 <= u * v) by (apply Rmult_le_pos; lra). nra.
Qed.

(** Numbers that are not small are multiples of one that is. *)
Lemma multiple (x : double) : bpow radix2 (-101) <= Rabs (B2R x) -> exists n : Z, B2R x = IZR n * bpow radix2 (-153).
Proof.
  intros H. pose proof (generic_format_B2R 53 1024 x) as G. unfold generic_format in G.
  set (e := cexp radix2 (SpecFloat.fexp 53 1024) (B2R x)) in *. set (m := Ztrunc _) in *.
  assert (E : (-153 <= e)%Z).
  { unfold e, cexp. assert (-100 <= mag radix2 (B2R x))%Z.
    { apply Z.le_trans with (-101 + 1)%Z; [lia|]. apply mag_ge_bpow. exact H. }
    unfold SpecFloat.fexp, SpecFloat.emin. lia. }
  exists (m * 2 ^ (e + 153))%Z. rewrite G. unfold F2R. cbn [Fnum Fexp]. rewrite mult_IZR.
  replace (IZR (2 ^ (e + 153))) with (bpow radix2 (e + 153)) by (symmetry; apply (IZR_Zpower radix2); lia).
  rewrite Rmult_assoc, <- bpow_plus. do 2 f_equal. lia.
Qed.
Lemma difference (x y : double) : is_finite x = true -> is_finite y = true -> Rabs (B2R x - B2R y) <= 1e200 ->
  1e-20 <= B2R y -> B2R (Bminus mode_NE x y) = 0 \/ 1e-60 <= Rabs (B2R (Bminus mode_NE x y)).
Proof.
  intros Fx Fy H Y. destruct (minus_round x y Fx Fy H) as [_ ->].
  pose proof (rnd_rel (B2R x - B2R y)) as E. pose proof eta_tiny as [_ T]. pose proof u_bounds as U.
  set (d := B2R x - B2R y) in *.
  assert (D : d = 0 \/ 1e-50 <= Rabs d).
  { destruct (Rle_lt_dec (1 / 10 * 1e-20) (Rabs d)) as [B|B]; [right; lra|].
    assert (S : bpow radix2 (-101) <= 1e-25).
    { change (bpow radix2 (-101)) with (/ IZR (2 ^ 101)). apply Rle_trans with (/ IZR (10 ^ 25)); [apply Rinv_le; [apply IZR_lt; reflexivity|apply IZR_le; vm_compute; discriminate]|].
      change (10 ^ 25)%Z with 10000000000000000000000000%Z. lra. }
    assert (Bd := B). apply Rabs_lt_inv in Bd. unfold d in Bd.
    destruct (multiple x) as (n & En). { rewrite Rabs_pos_eq; lra. }
    destruct (multiple y) as (k & Ek). { rewrite Rabs_pos_eq; lra. }
    unfold d. rewrite En, Ek, <- Rmult_minus_distr_r, <- minus_IZR. destruct (Z.eq_dec (n - k) 0) as [-> |N]; [left; ring|right].
    rewrite Rabs_mult, <- abs_IZR, (Rabs_pos_eq (bpow _ _)) by apply bpow_ge_0.
    assert (1 <= IZR (Z.abs (n - k))) by (apply IZR_le; lia).
    assert (L : 1e-50 <= bpow radix2 (-153)).
    { change (bpow radix2 (-153)) with (/ IZR (2 ^ 153)). apply Rle_trans with (/ IZR (10 ^ 50)).
      - change (10 ^ 50)%Z with 100000000000000000000000000000000000000000000000000%Z. lra.
      - apply Rinv_le; [apply IZR_lt; reflexivity|apply IZR_le; vm_compute; discriminate]. }
    nra. }
  destruct D as [-> |D]; [left; apply round_0, valid_rnd_N|right].
  assert (Rabs d - Rabs (rnd d) <= Rabs (rnd d - d)). { rewrite (Rabs_minus_sym (rnd d)). apply Rabs_triang_inv. } nra.
Qed.

(** ** The coefficients *)
Section Coefficients.
Variables eq pol : double.
Hypothesis Fe : is_finite eq = true.
Hypothesis Fp : is_finite pol = true.
Local Notation a := (B2R eq).
Local Notation c := (B2R pol).
Hypothesis Hc : 1e-3 <= c.
Hypothesis Hle : c <= a.
Hypothesis Ha : a <= 1e9.

Lemma square_near (x : double) : is_finite x = true -> 1e-3 <= B2R x <= 1e9 ->
  is_finite (Bmult mode_NE x x) = true /\ Rabs (B2R (Bmult mode_NE x x) - B2R x * B2R x) <= 1.1 * u * (B2R x * B2R x).
Proof.
  intros F B. assert (Q : 1e-6 <= B2R x * B2R x <= 1e18) by (split; nra). destruct (mult_rel x x F F) as [Fm E]; [apply Rabs_le; lra|].
  split; [exact Fm|]. rewrite (Rabs_pos_eq (_ * _)) in E by lra. pose proof eta_tiny as [_ T]. pose proof u_value as UV.
  assert (1e-60 <= 0.1 * u * 1e-6) by (rewrite UV; lra). assert (0.1 * u * 1e-6 <= 0.1 * u * (B2R x * B2R x)) by (apply Rmult_le_compat_l; [rewrite UV|]; lra). lra.
Qed.

(** [q * t * t] with [q] the square of [x]. *)
Lemma term_near (x t : double) : is_finite x = true -> 1e-3 <= B2R x <= 1e9 -> is_finite t = true -> Rabs (B2R t) <= 1e28 ->
  let T := Bmult mode_NE (Bmult mode_NE (Bmult mode_NE x x) t) t in
  let v := B2R x * B2R x * (B2R t * B2R t) in
  is_finite T = true /\ Rabs (B2R T - v) <= 3.3 * u * v + 1e-31.
Proof.
  intros F B Ft Bt. cbv zeta. destruct (square_near x F B) as [Fq Eq]. set (q := Bmult mode_NE x x) in *.
  pose proof eta_tiny as [T0 T]. pose proof u_value as UV. pose proof u_bounds as U.
  set (r := B2R x * B2R x) in *. assert (R0 : 1e-6 <= r <= 1e18) by (unfold r; split; nra).
  assert (Q1 : 0 <= B2R q <= 2e18). { abs Eq. split; nra. }
  assert (B1 : Rabs (B2R q * B2R t) <= 2e46). { rewrite Rabs_mult, (Rabs_pos_eq (B2R q)) by lra. apply Rle_trans with (2e18 * 1e28); [apply Rmult_le_compat; try apply Rabs_pos; lra|lra]. }
  destruct (mult_rel q t Fq Ft) as [Fm Em]; [lra|]. set (m := Bmult mode_NE q t) in *.
  assert (B2 : Rabs (B2R m) <= 3e46).
  { replace (B2R m) with (B2R m - B2R q * B2R t + B2R q * B2R t) by ring. eapply Rle_trans; [apply Rabs_triang|]. nra. }
  destruct (mult_rel m t Fm Ft) as [Fl El].
  { rewrite Rabs_mult. apply Rle_trans with (3e46 * 1e28); [apply Rmult_le_compat; try apply Rabs_pos; lra|lra]. }
  split; [exact Fl|]. set (w := B2R t * B2R t) in *. assert (W0 : 0 <= w) by (unfold w; nra).
  assert (V0 : 0 <= r * w) by (apply Rmult_le_pos; lra).
  (* q t t *)
  assert (S0 : Rabs (B2R q * w - r * w) <= 1.1 * u * (r * w) + 0).
  { rewrite <- Rmult_minus_distr_r, Rabs_mult, (Rabs_pos_eq w) by lra. rewrite Rplus_0_r.
    replace (1.1 * u * (r * w)) with (1.1 * u * r * w) by ring. apply Rmult_le_compat_r; lra. }
  (* m t *)
  assert (S1 : Rabs (B2R m * B2R t - B2R q * w) <= u * Rabs (B2R q * w) + 1e-32).
  { replace (B2R m * B2R t - B2R q * w) with ((B2R m - B2R q * B2R t) * B2R t) by (unfold w; ring). rewrite Rabs_mult.
    apply Rle_trans with ((u * Rabs (B2R q * B2R t) + eta) * Rabs (B2R t)); [apply Rmult_le_compat_r; [apply Rabs_pos|exact Em]|].
    rewrite Rmult_plus_distr_r. replace (u * Rabs (B2R q * B2R t) * Rabs (B2R t)) with (u * Rabs (B2R q * w)).
    2: { rewrite Rmult_assoc, <- Rabs_mult. do 2 f_equal. unfold w. ring. }
    apply Rplus_le_compat_l. apply Rle_trans with (1e-60 * 1e28); [apply Rmult_le_compat; try apply Rabs_pos; lra|lra]. }
  pose proof (step_rel _ _ (r * w) 1.1 0 1e-32 V0 ltac:(lra) ltac:(lra) S0 S1) as S2.
  assert (S3 : Rabs (B2R (Bmult mode_NE m t) - B2R m * B2R t) <= u * Rabs (B2R m * B2R t) + 1e-60) by lra.
  pose proof (step_rel _ _ (r * w) (1.1 + 1.1) (2 * 0 + 1e-32) 1e-60 V0 ltac:(lra) ltac:(lra) S2 S3) as S4.
  lra.
Qed.

Lemma coefficient_near (x z last : double) : is_finite x = true -> is_finite z = true -> Rabs (B2R x) <= 1e28 -> Rabs (B2R z) <= 1e28 ->
  is_finite last = true -> B2R last = 0 ->
  let a2 := Bmult mode_NE eq eq in let c2 := Bmult mode_NE pol pol in
  let CC := Bminus mode_NE (Bminus mode_NE (Bplus mode_NE (Bmult mode_NE (Bmult mode_NE a2 z) z) (Bmult mode_NE (Bmult mode_NE c2 x) x))
              (Bmult mode_NE a2 c2)) last in
  let v := a * a * (B2R z * B2R z) + c * c * (B2R x * B2R x) in let w := a * a * (c * c) in
  is_finite CC = true /\ Rabs (B2R CC - (v - w)) <= 8 * u * (v + w) /\ (B2R CC = 0 \/ 1e-60 <= Rabs (B2R CC)).
Proof.
  intros Fx Fz Bx Bz Fl Zl. cbv zeta.
  destruct (square_near eq Fe ltac:(lra)) as [Fa2 Ea2]. destruct (square_near pol Fp ltac:(lra)) as [Fc2 Ec2].
  destruct (term_near eq z Fe ltac:(lra) Fz Bz) as [F1 E1]. destruct (term_near pol x Fp ltac:(lra) Fx Bx) as [F2 E2].
  set (a2 := Bmult mode_NE eq eq) in *. set (c2 := Bmult mode_NE pol pol) in *.
  set (T1 := Bmult mode_NE (Bmult mode_NE a2 z) z) in *. set (T2 := Bmult mode_NE (Bmult mode_NE c2 x) x) in *.
  pose proof eta_tiny as [T0 T]. pose proof u_value as UV. pose proof u_bounds as U.
  set (v1 := a * a * (B2R z * B2R z)) in *. set (v2 := c * c * (B2R x * B2R x)) in *. set (w := a * a * (c * c)).
  assert (A2 : 1e-6 <= a * a <= 1e18) by (split; nra). assert (C2 : 1e-6 <= c * c <= 1e18) by (split; nra).
  assert (Wb : 1e-12 <= w <= 1e36).
  { unfold w. split; [apply Rle_trans with (1e-6 * 1e-6); [lra|apply Rmult_le_compat; lra]|apply Rle_trans with (1e18 * 1e18); [apply Rmult_le_compat; lra|lra]]. }
  assert (Z2 : 0 <= B2R z * B2R z <= 1e56). { split; [nra|]. apply Rle_trans with (Rabs (B2R z) * Rabs (B2R z)); [rewrite <- Rabs_mult; apply Rle_abs|].
    apply Rle_trans with (1e28 * 1e28); [apply Rmult_le_compat; try apply Rabs_pos; lra|lra]. }
  assert (X2 : 0 <= B2R x * B2R x <= 1e56). { split; [nra|]. apply Rle_trans with (Rabs (B2R x) * Rabs (B2R x)); [rewrite <- Rabs_mult; apply Rle_abs|].
    apply Rle_trans with (1e28 * 1e28); [apply Rmult_le_compat; try apply Rabs_pos; lra|lra]. }
  assert (V1 : 0 <= v1 <= 1e74). { unfold v1. split; [apply Rmult_le_pos; lra|apply Rle_trans with (1e18 * 1e56); [apply Rmult_le_compat; lra|lra]]. }
  assert (V2 : 0 <= v2 <= 1e74). { unfold v2. split; [apply Rmult_le_pos; lra|apply Rle_trans with (1e18 * 1e56); [apply Rmult_le_compat; lra|lra]]. }
  set (v := v1 + v2). assert (V0 : 0 <= v <= 2e74) by (unfold v; lra).
  assert (UV1 : 0 <= u * v1 <= 1e-9 * v1) by (split; [apply Rmult_le_pos; lra|apply Rmult_le_compat_r; lra]).
  assert (UV2 : 0 <= u * v2 <= 1e-9 * v2) by (split; [apply Rmult_le_pos; lra|apply Rmult_le_compat_r; lra]).
  assert (S0 : Rabs (B2R T1 + B2R T2 - v) <= 3.3 * u * v + 2e-31).
  { replace (B2R T1 + B2R T2 - v) with ((B2R T1 - v1) + (B2R T2 - v2)) by (unfold v; ring). eapply Rle_trans; [apply Rabs_triang|]. unfold v. lra. }
  destruct (plus_rel T1 T2 F1 F2) as [F3 E3]. { abs S0. apply Rabs_le. unfold v in *. lra. }
  set (S1 := Bplus mode_NE T1 T2) in *.
  pose proof (step_rel _ _ v 3.3 2e-31 eta ltac:(lra) ltac:(lra) ltac:(lra) S0 E3) as S2.
  assert (P0 : Rabs (B2R a2 * B2R c2 - w) <= 2.3 * u * w + 0).
  { set (p := B2R a2) in *. set (q := B2R c2) in *. replace (p * q - w) with ((p - a * a) * q + a * a * (q - c * c)) by (unfold w; ring).
    eapply Rle_trans; [apply Rabs_triang|]. rewrite (Rabs_mult (p - a * a) q), (Rabs_mult (a * a)), (Rabs_pos_eq (a * a)) by lra.
    assert (Rabs q <= 1.01 * (c * c)). { abs Ec2. apply Rabs_le. nra. }
    assert (Rabs (p - a * a) * Rabs q <= 1.1 * u * (a * a) * (1.01 * (c * c))) by (apply Rmult_le_compat; try apply Rabs_pos; assumption).
    assert (a * a * Rabs (q - c * c) <= a * a * (1.1 * u * (c * c))) by (apply Rmult_le_compat_l; lra).
    assert (G : forall k l, k * u * (a * a) * (l * (c * c)) = k * l * (u * w)) by (intros; unfold w; ring). rewrite G in H0.
    replace (a * a * (1.1 * u * (c * c))) with (1.1 * u * (a * a) * (1 * (c * c))) in H1 by ring. rewrite G in H1.
    assert (0 <= u * w) by (apply Rmult_le_pos; lra). lra. }
  assert (UW : 0 <= u * w <= 1e-9 * w) by (split; [apply Rmult_le_pos; lra|apply Rmult_le_compat_r; lra]).
  destruct (mult_rel a2 c2 Fa2 Fc2) as [F4 E4]. { abs P0. apply Rabs_le. lra. }
  set (S3 := Bmult mode_NE a2 c2) in *.
  pose proof (step_rel _ _ w 2.3 0 eta ltac:(lra) ltac:(lra) ltac:(lra) P0 E4) as S4.
  assert (UVv : 0 <= u * v <= 1e-9 * v) by (split; [apply Rmult_le_pos; lra|apply Rmult_le_compat_r; lra]).
  assert (S1b : Rabs (B2R S1 - v) <= 4.5 * (u * v) + 5e-31) by lra. assert (S3b : Rabs (B2R S3 - w) <= 3.5 * (u * w) + 1e-59) by lra.
  assert (Bd : Rabs (B2R S1 - B2R S3) <= 1e200). { abs S1b. abs S3b. apply Rabs_le. lra. }
  destruct (minus_rel S1 S3 F3 F4 Bd) as [F5 E5].
  pose proof (difference S1 S3 F3 F4 Bd) as Dz.
  destruct (minus_zero _ last F5 Fl Zl) as [F6 E6]. rewrite E6. split; [exact F6|].
  split.
  - set (S5 := Bminus mode_NE S1 S3) in *.
    assert (D1 : Rabs (B2R S1 - B2R S3 - (v - w)) <= 4.5 * (u * v) + 3.5 * (u * w) + 6e-31).
    { replace (B2R S1 - B2R S3 - (v - w)) with ((B2R S1 - v) + - (B2R S3 - w)) by ring. eapply Rle_trans; [apply Rabs_triang|]. rewrite Rabs_Ropp. lra. }
    assert (D2 : Rabs (B2R S1 - B2R S3) <= 1.1 * (v + w)). { abs D1. apply Rabs_le. lra. }
    assert (D3 : u * Rabs (B2R S1 - B2R S3) <= u * (1.1 * (v + w))) by (apply Rmult_le_compat_l; lra).
    replace (B2R S5 - (v - w)) with ((B2R S5 - (B2R S1 - B2R S3)) + (B2R S1 - B2R S3 - (v - w))) by ring.
    eapply Rle_trans; [apply Rabs_triang|]. fold v w. assert (2e-30 <= u * w) by (apply Rle_trans with (u * 1e-12); [rewrite UV; lra|apply Rmult_le_compat_l; lra]).
    fold v. lra.
  - apply Dz. abs S3b. lra.
Qed.
End Coefficients.
