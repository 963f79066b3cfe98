(** Points near those seen on orthographic maps: used by the proofs of C116. *)
From Coq Require Import List ZArith Reals Lra Lia Bool Psatz.
From Flocq Require Import Core.
From Verif Require Import Base Num LinAlg_Model Maths_Spec Spheroid_Model Spheroid_Spec Spheroid_Proofs Proj_Spec Proj_Proofs Ortho_Spec Ortho_Proofs.
Import ListNotations.
Open Scope R_scope.
Local Ltac abs H := apply Rabs_le_inv in H.

Lemma sq_close p q e M s : 0 < s -> 0 <= e -> 0 <= M -> Rabs (p - q) <= e * s -> Rabs q <= M * s ->
  Rabs (p ^ 2 / s ^ 2 - q ^ 2 / s ^ 2) <= e * (2 * M + e).
Proof.
  intros S E M0 H Q.
  replace (p ^ 2 / s ^ 2 - q ^ 2 / s ^ 2) with ((p - q) / s * ((p - q) / s + 2 * (q / s))) by (field; lra).
  assert (IS : 0 < / s) by now apply Rinv_0_lt_compat.
  assert (A : Rabs ((p - q) / s) <= e).
  { unfold Rdiv. rewrite Rabs_mult, (Rabs_pos_eq (/ s)) by lra. apply Rmult_le_reg_r with s; [exact S|]. rewrite Rmult_assoc, Rinv_l by lra. lra. }
  assert (B : Rabs (q / s) <= M).
  { unfold Rdiv. rewrite Rabs_mult, (Rabs_pos_eq (/ s)) by lra. apply Rmult_le_reg_r with s; [exact S|]. rewrite Rmult_assoc, Rinv_l by lra. lra. }
  rewrite Rabs_mult. apply Rmult_le_compat; try apply Rabs_pos; [exact A|]. eapply Rle_trans; [apply Rabs_triang|].
  rewrite Rabs_mult, (Rabs_pos_eq 2) by lra. lra.
Qed.
Lemma quotient_le x s M : 0 < s -> 0 <= M -> x ^ 2 / s ^ 2 <= M ^ 2 -> Rabs x <= M * s.
Proof.
  intros S M0 H. replace (x ^ 2 / s ^ 2) with ((x / s) ^ 2) in H by (field; lra).
  assert (K : Rabs (x / s) <= M). { apply Rnot_lt_le. intros L. rewrite <- (pow2_abs (x / s)) in H. pose proof (Rabs_pos (x / s)). nra. }
  unfold Rdiv in K. assert (IS : 0 < / s) by now apply Rinv_0_lt_compat. rewrite Rabs_mult, (Rabs_pos_eq (/ s)) in K by lra.
  apply Rmult_le_reg_r with (/ s); [exact IS|]. rewrite Rmult_assoc, Rinv_r by lra. lra.
Qed.
Lemma quotient_pos x s : 0 < s -> 0 <= x ^ 2 / s ^ 2.
Proof. intros S. replace (x ^ 2 / s ^ 2) with ((x / s) ^ 2) by (field; lra). apply pow2_ge_0. Qed.

Lemma scale_near s G : 0 < s -> s ^ 2 * G = 1 -> - (1e-13) <= G - 1 <= 1e-13 -> Rabs (s - 1) <= 2e-13.
Proof.
  intros S E B. assert (K : Rabs (s - 1) * ((s + 1) * G) <= 1e-13).
  { assert (0 <= (s + 1) * G) by (apply Rmult_le_pos; lra). rewrite <- (Rabs_pos_eq ((s + 1) * G)) by assumption. rewrite <- Rabs_mult.
    replace ((s - 1) * ((s + 1) * G)) with (s ^ 2 * G - G) by ring. rewrite E. apply Rabs_le. lra. }
  assert (L : 0.9 <= (s + 1) * G). { apply Rle_trans with (1 * 0.9); [lra|apply Rmult_le_compat; lra]. }
  pose proof (Rabs_pos (s - 1)). assert (Rabs (s - 1) * 0.9 <= Rabs (s - 1) * ((s + 1) * G)) by (apply Rmult_le_compat_l; assumption). lra.
Qed.
Lemma norm_pos p q : p <> 0 \/ q <> 0 -> 0 < p * p + q * q.
Proof. intros [H|H]; nra. Qed.
Lemma norm_nonneg p q : 0 <= p * p + q * q.
Proof. nra. Qed.
Lemma combination t p q : Rabs (p * cos t + q * sin t) <= Rabs p + Rabs q /\ Rabs (p * cos t - q * sin t) <= Rabs p + Rabs q /\
  Rabs (p * sin t + q * cos t) <= Rabs p + Rabs q.
Proof.
  assert (C : Rabs (cos t) <= 1) by (apply Rabs_le; apply COS_bound). assert (S : Rabs (sin t) <= 1) by (apply Rabs_le; apply SIN_bound).
  assert (M : forall r c, Rabs c <= 1 -> Rabs (r * c) <= Rabs r).
  { intros r c Hc. rewrite Rabs_mult. rewrite <- (Rmult_1_r (Rabs r)) at 2. apply Rmult_le_compat_l; [apply Rabs_pos|exact Hc]. }
  split; [|split].
  - eapply Rle_trans; [apply Rabs_triang|]. apply Rplus_le_compat; now apply M.
  - unfold Rminus. eapply Rle_trans; [apply Rabs_triang|]. rewrite Rabs_Ropp. apply Rplus_le_compat; now apply M.
  - eapply Rle_trans; [apply Rabs_triang|]. apply Rplus_le_compat; now apply M.
Qed.

Section Near.
Variables (pro : bool) (a c phi lam pa : R).
Hypothesis Hc : 1e-3 <= c.
Hypothesis Hle : c <= a.
Hypothesis Hflat : a <= 2 * c.
Variables x z xr zr : R.
Local Notation X := (x * cos pa + z * sin pa).
Local Notation Z := (z * cos pa - x * sin pa).
Local Notation m := (Rabs x + Rabs z).
Hypothesis Hx : Rabs (xr - X) <= 3e-15 * m + 1e-100.
Hypothesis Hz : Rabs (zr - Z) <= 3e-15 * m + 1e-100.

Lemma back_x : x = X * cos pa - Z * sin pa.
Proof. transitivity (x * (sin pa * sin pa + cos pa * cos pa)); [rewrite sc1|]; ring. Qed.
Lemma back_z : z = X * sin pa + Z * cos pa.
Proof. transitivity (z * (sin pa * sin pa + cos pa * cos pa)); [rewrite sc1|]; ring. Qed.
Lemma size_bound : m <= 2 * (Rabs X + Rabs Z).
Proof.
  destruct (combination pa X Z) as (_ & A & B). rewrite <- back_x in A. rewrite <- back_z in B. lra.
Qed.

Lemma outside_near : 1 - 1e-14 <= xr ^ 2 / a ^ 2 + zr ^ 2 / c ^ 2 -> 1 - 1e-12 <= X ^ 2 / a ^ 2 + Z ^ 2 / c ^ 2.
Proof.
  intros H. apply Rnot_lt_le. intros L. pose proof (quotient_pos X a ltac:(lra)). pose proof (quotient_pos Z c ltac:(lra)).
  assert (BX : Rabs X <= 1 * a) by (apply quotient_le; lra). assert (BZ : Rabs Z <= 1 * c) by (apply quotient_le; lra).
  pose proof size_bound as M.
  assert (Q1 := sq_close xr X 2e-14 1 a ltac:(lra) ltac:(lra) ltac:(lra) ltac:(lra) BX).
  assert (Q2 := sq_close zr Z 4e-14 1 c ltac:(lra) ltac:(lra) ltac:(lra) ltac:(lra) BZ).
  abs Q1. abs Q2. lra.
Qed.

Lemma inside_near : xr ^ 2 / a ^ 2 + zr ^ 2 / c ^ 2 <= 1.001 ->
  Rabs xr <= 1.001 * a /\ Rabs zr <= 1.001 * c /\ Rabs (xr - X) <= 2e-14 * a /\ Rabs (zr - Z) <= 2e-14 * a.
Proof.
  intros H. pose proof (quotient_pos xr a ltac:(lra)). pose proof (quotient_pos zr c ltac:(lra)).
  assert (BX : Rabs xr <= 1.001 * a) by (apply quotient_le; lra). assert (BZ : Rabs zr <= 1.001 * c) by (apply quotient_le; lra).
  pose proof size_bound as M.
  assert (Rabs X <= 1.001 * a + (3e-15 * m + 1e-100)).
  { replace X with (xr - (xr - X)) by ring. unfold Rminus at 1. eapply Rle_trans; [apply Rabs_triang|]. rewrite Rabs_Ropp. lra. }
  assert (Rabs Z <= 1.001 * c + (3e-15 * m + 1e-100)).
  { replace Z with (zr - (zr - Z)) by ring. unfold Rminus at 1. eapply Rle_trans; [apply Rabs_triang|]. rewrite Rabs_Ropp. lra. }
  assert (m <= 4.1 * a) by lra. repeat split; try assumption; lra.
Qed.

Variables y ry rz hh t : R.
Hypothesis Hin : Rabs (y ^ 2 / a ^ 2 + xr ^ 2 / a ^ 2 + zr ^ 2 / c ^ 2 - 1) <= 1e-14.
Hypothesis Hy : y <= 0.
Hypothesis Hview : c = a \/ (sin phi = 0 /\ cos phi = 1).
Local Notation Y := (y * cos phi + zr * sin phi).
Local Notation W := (zr * cos phi - y * sin phi).
Hypothesis Hry : Rabs (ry - Y) <= 1e-14 * a.
Hypothesis Hrz : Rabs (rz - W) <= 1e-14 * a.
Hypothesis Hh0 : 0 <= hh.
Hypothesis Hh : Rabs (hh - hypot xr ry) <= 1e-14 * a.
Hypothesis Ht : hypot xr ry * cos t = ry /\ hypot xr ry * sin t = - xr.

Lemma surface_near :
  let lon := if pro then lam - t + PI else lam + t - PI in
  (hh <> 0 \/ rz <> 0) /\
  exists P, is_vec 3 P /\ on_spheroid a c P /\ has_position pro P (atan2 rz hh) lon /\
    (exists px pz, projects_to pro phi lam pa P px pz /\ Rabs (px - x) <= 1e-12 * a /\ Rabs (pz - z) <= 1e-12 * a) /\
    - (1e-12) * a <= inner 3 P (toward pro phi lam).
Proof.
  intros lon. assert (A0 : 0 < a) by lra. assert (C0 : 0 < c) by lra.
  pose proof (quotient_pos xr a A0) as Q1. pose proof (quotient_pos zr c C0) as Q2. pose proof (quotient_pos y a A0) as Q3.
  assert (Hin' := Hin). abs Hin'.
  destruct inside_near as (Bx & Bz & Ex & Ez); [lra|].
  assert (By : Rabs y <= 1.001 * a) by (apply quotient_le; lra).
  assert (S : Y ^ 2 / a ^ 2 + W ^ 2 / c ^ 2 = y ^ 2 / a ^ 2 + zr ^ 2 / c ^ 2).
  { destruct Hview as [->|[-> ->]].
    - replace (Y ^ 2 / a ^ 2 + W ^ 2 / a ^ 2) with ((y ^ 2 + zr ^ 2) * (sin phi * sin phi + cos phi * cos phi) / a ^ 2) by (field; lra). rewrite sc1. field. lra.
    - f_equal; f_equal; f_equal; ring. }
  pose proof (quotient_pos Y a A0) as Q4. pose proof (quotient_pos W c C0) as Q5.
  assert (BY : Rabs Y <= 1.001 * a) by (apply quotient_le; lra). assert (BW : Rabs W <= 1.001 * c) by (apply quotient_le; lra).
  assert (D1 := sq_close ry Y 1e-14 1.001 a A0 ltac:(lra) ltac:(lra) ltac:(lra) BY).
  assert (D2 := sq_close rz W 2e-14 1.001 c C0 ltac:(lra) ltac:(lra) ltac:(lra) BW).
  set (h := hypot xr ry) in *. assert (H0 : 0 <= h) by apply sqrt_pos.
  assert (HH : h ^ 2 = xr ^ 2 + ry ^ 2). { replace (h ^ 2) with (h * h) by ring. unfold h, hypot. rewrite sqrt_sqrt by apply norm_nonneg. ring. }
  assert (HQ : h ^ 2 / a ^ 2 = xr ^ 2 / a ^ 2 + ry ^ 2 / a ^ 2) by (rewrite HH; field; lra).
  abs D1. abs D2.
  assert (Bh : Rabs h <= 1.001 * a) by (apply quotient_le; lra).
  assert (D3 := sq_close hh h 1e-14 1.001 a A0 ltac:(lra) ltac:(lra) ltac:(lra) Bh). abs D3.
  set (G := hh ^ 2 / a ^ 2 + rz ^ 2 / c ^ 2).
  assert (BG : Rabs (G - 1) <= 1e-13) by (apply Rabs_le; unfold G; lra). abs BG.
  assert (N1 : hh <> 0 \/ rz <> 0).
  { destruct (Req_dec hh 0) as [E|]; [right|now left]. intros E'. unfold G in BG. rewrite E, E' in BG.
    replace (0 ^ 2 / a ^ 2 + 0 ^ 2 / c ^ 2) with 0 in BG by (field; lra). lra. }
  split; [exact N1|].
  (* the scale *)
  set (s := / sqrt G). assert (SG : 0 < sqrt G) by (apply sqrt_lt_R0; lra).
  assert (S0 : 0 < s) by now apply Rinv_0_lt_compat.
  assert (SS : s ^ 2 * G = 1). { unfold s. replace (( / sqrt G) ^ 2) with (/ (sqrt G * sqrt G)) by (field; lra). rewrite sqrt_sqrt by lra. field. lra. }
  assert (S1 : Rabs (s - 1) <= 2e-13).
  { exact (scale_near s G S0 SS BG). }
  (* the point *)
  destruct (atan2_polar hh rz N1) as (C & Sn & Bd). set (lat := atan2 rz hh) in *. set (r := hypot hh rz) in *.
  assert (Hr : 0 < r). { unfold r, hypot. apply sqrt_lt_R0. now apply norm_pos. }
  set (E := east pro lam). set (P := [- (s * (hh * cos t * cos E - hh * sin t * sin E)); - (s * (hh * cos t * sin E + hh * sin t * cos E)); s * rz]).
  assert (Pos : P = spherical (s * r) lat (east pro lon)).
  { assert (El : east pro lon = E + t - PI) by (unfold E, east, lon; destruct pro; ring).
    rewrite El. unfold spherical, P. rewrite cos_minus, sin_minus, cos_PI, sin_PI, cos_plus, sin_plus, <- C. f_equal; [ring|f_equal; [ring|f_equal]].
    rewrite Rmult_assoc, <- Sn. reflexivity. }
  assert (Tt : cos t * cos t + sin t * sin t = 1) by (rewrite Rplus_comm; apply sc1).
  exists P. split; [reflexivity|]. split; [|split; [exists (s * r); split; [now apply Rmult_lt_0_compat|exact Pos]|]].
  { unfold on_spheroid, P, vget. cbn [nth].
    replace ((- (s * (hh * cos t * cos E - hh * sin t * sin E))) ^ 2 + (- (s * (hh * cos t * sin E + hh * sin t * cos E))) ^ 2)
      with (s ^ 2 * (hh ^ 2 * (cos t * cos t + sin t * sin t) * (sin E * sin E + cos E * cos E))) by ring.
    rewrite Tt, sc1. transitivity (s ^ 2 * G); [unfold G; field; lra|exact SS]. }
  (* its coordinates on the sky *)
  set (u := - (s * (hh * sin t))). set (v := s * (hh * cos t)). set (w := s * rz).
  assert (PF : P = fixed pro lam u v w). { unfold P, fixed, u, v, w. fold E. f_equal; [ring|f_equal; ring]. }
  assert (B1 : Rabs (hh * sin t - - xr) <= 1e-14 * a /\ Rabs (hh * cos t - ry) <= 1e-14 * a).
  { destruct Ht as [T1 T2]. fold h in T1, T2. rewrite <- T1, <- T2, <- !Rmult_minus_distr_r.
    assert (Rabs (cos t) <= 1) by (apply Rabs_le; apply COS_bound). assert (Rabs (sin t) <= 1) by (apply Rabs_le; apply SIN_bound).
    rewrite !(Rabs_mult (hh - h)). pose proof (Rabs_pos (hh - h)). split; (eapply Rle_trans; [apply Rmult_le_compat_l; [assumption|eassumption]|lra]). }
  destruct B1 as [B1 B2].
  assert (Sc : forall p q e, Rabs (p - q) <= e * a -> 0 <= e <= 1e-13 -> Rabs q <= 1.01 * a -> Rabs (s * p - q) <= (e + 3e-13) * a).
  { intros p q e Hp He Hq. replace (s * p - q) with ((p - q) + (s - 1) * p) by ring. eapply Rle_trans; [apply Rabs_triang|].
    assert (Rabs p <= 1.02 * a). { replace p with (p - q + q) by ring. eapply Rle_trans; [apply Rabs_triang|].
      assert (e * a <= 1e-13 * a) by (apply Rmult_le_compat_r; lra). lra. }
    rewrite Rabs_mult. assert (Rabs (s - 1) * Rabs p <= 2e-13 * (1.02 * a)) by (apply Rmult_le_compat; try apply Rabs_pos; assumption). lra. }
  assert (U1 : Rabs (u - xr) <= 3.1e-13 * a).
  { unfold u. replace (- (s * (hh * sin t)) - xr) with (- (s * (hh * sin t) - - xr)) by ring. rewrite Rabs_Ropp.
    eapply Rle_trans; [apply (Sc _ _ 1e-14 B1)|]; [lra|rewrite Rabs_Ropp; lra|lra]. }
  assert (BRY : Rabs ry <= 1.002 * a).
  { replace ry with (ry - Y + Y) by ring. eapply Rle_trans; [apply Rabs_triang|]. lra. }
  assert (BRZ : Rabs rz <= 1.002 * a).
  { replace rz with (rz - W + W) by ring. eapply Rle_trans; [apply Rabs_triang|]. lra. }
  assert (V1 : Rabs (v - Y) <= 3.2e-13 * a).
  { replace (v - Y) with ((v - ry) + (ry - Y)) by ring. eapply Rle_trans; [apply Rabs_triang|].
    assert (Rabs (v - ry) <= (1e-14 + 3e-13) * a) by (apply Sc; lra). lra. }
  assert (W1 : Rabs (w - W) <= 3.2e-13 * a).
  { assert (Rabs (w - W) <= (1e-14 + 3e-13) * a) by (apply Sc; lra). lra. }
  assert (RT : inner 3 P (rightward pro lam) = u).
  { rewrite PF. unfold fixed, inner, rightward, vget. cbn [sum_to nth]. fold E. transitivity (u * (sin E * sin E + cos E * cos E)); [ring|]. rewrite sc1. ring. }
  assert (NT : inner 3 P (northward pro phi lam) = v * sin phi + w * cos phi).
  { rewrite PF. unfold fixed, inner, northward, vget. cbn [sum_to nth]. fold E. transitivity (v * sin phi * (sin E * sin E + cos E * cos E) + w * cos phi); [ring|]. rewrite sc1. ring. }
  assert (TT : inner 3 P (toward pro phi lam) = - (v * cos phi - w * sin phi)).
  { rewrite PF. unfold fixed, inner, toward, spherical, vget. cbn [sum_to nth]. fold E. transitivity (- (v * cos phi * (sin E * sin E + cos E * cos E)) + w * sin phi); [ring|]. rewrite sc1. ring. }
  set (n := v * sin phi + w * cos phi) in *.
  assert (Nn : Rabs (n - zr) <= 6.4e-13 * a).
  { replace (n - zr) with ((v - Y) * sin phi + (w - W) * cos phi).
    - destruct (combination phi (v - Y) (w - W)) as (_ & _ & K). lra.
    - unfold n. transitivity (v * sin phi + w * cos phi - zr * (sin phi * sin phi + cos phi * cos phi)); [ring|]. rewrite sc1. ring. }
  split.
  - exists (u * cos pa - n * sin pa), (u * sin pa + n * cos pa). split; [unfold projects_to; rewrite RT, NT; split; reflexivity|].
    assert (K1 : Rabs (u - X) <= 3.3e-13 * a).
    { replace (u - X) with ((u - xr) + (xr - X)) by ring. eapply Rle_trans; [apply Rabs_triang|]. lra. }
    assert (K2 : Rabs (n - Z) <= 6.6e-13 * a).
    { replace (n - Z) with ((n - zr) + (zr - Z)) by ring. eapply Rle_trans; [apply Rabs_triang|]. lra. }
    destruct (combination pa (u - X) (n - Z)) as (_ & T1 & T2). split.
    + replace (u * cos pa - n * sin pa - x) with ((u - X) * cos pa - (n - Z) * sin pa) by (pose proof back_x as Bk; clear - Bk; lra). lra.
    + replace (u * sin pa + n * cos pa - z) with ((u - X) * sin pa + (n - Z) * cos pa) by (pose proof back_z as Bk; clear - Bk; lra). lra.
  - rewrite TT. replace (v * cos phi - w * sin phi) with (y + ((v - Y) * cos phi - (w - W) * sin phi)).
    + destruct (combination phi (v - Y) (w - W)) as (_ & K & _). abs K. lra.
    + transitivity (y - y * (sin phi * sin phi + cos phi * cos phi) + (v * cos phi - w * sin phi)); [ring|]. rewrite sc1. ring.
Qed.
End Near.
