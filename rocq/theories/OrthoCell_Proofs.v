(** Accuracy of the point plotted by orthographic maps: used by the proofs of C116. *)
From Coq Require Import List ZArith Reals Bool Lra Lia Psatz.
From Flocq Require Import Core BinarySingleNaN Relative.
From Verif Require Import Base BaseFacts Flt FltFacts Num LinAlg_Model Maths_Spec Spheroid_Model Spheroid_Spec Spheroid_Proofs Proj_Model Proj_Spec Proj_Proofs
  Virtual_Model Virtual_Proofs RunAngle_Proofs Roots_Model OrthoDouble_Proofs OrthoRoots_Proofs PiBound_Proofs
  Ortho_Model Ortho_Spec Ortho_Proofs OrthoNear_Proofs RunOrtho_Spec OrthoPoint_Proofs.
Import ListNotations.
Open Scope R_scope.

#[local] Existing Instance prec53.
#[local] Existing Instance emax53.
Local Ltac abs H := apply Rabs_le_inv in H.

Lemma longitude_sum (pro : bool) (lon t p : double) t' : is_finite lon = true -> is_finite t = true -> is_finite p = true ->
  - (7) <= B2R lon <= 7 -> - (4) <= B2R t <= 4 -> - (4.01) <= B2R p <= 4.01 -> - (1e-15) <= B2R t - t' <= 1e-15 -> - (2e-16) <= B2R p - PI <= 2e-16 ->
  let lo := if pro then Bplus mode_NE (Bminus mode_NE lon t) p else Bminus mode_NE (Bplus mode_NE lon t) p in
  is_finite lo = true /\ Rabs (B2R lo - (if pro then B2R lon - t' + PI else B2R lon + t' - PI)) <= 1e-14 /\ Rabs (B2R lo) <= 16.
Proof.
  intros Fl Ft Fp Bl Bt Bp Et Ep. pose proof u_value as UV. pose proof eta_u as T. rewrite UV in T. cbv zeta. destruct pro.
  - destruct (minus_near lon t 11) as [F1 E1]; try assumption; [apply Rabs_le; lra|lra|]. rewrite UV in E1. abs E1.
    destruct (plus_near (Bminus mode_NE lon t) p 15.5) as [F2 E2]; try assumption; [apply Rabs_le; lra|lra|].
    rewrite UV in E2. abs E2. split; [exact F2|]. split; apply Rabs_le; lra.
  - destruct (plus_near lon t 11) as [F1 E1]; try assumption; [apply Rabs_le; lra|lra|]. rewrite UV in E1. abs E1.
    destruct (minus_near (Bplus mode_NE lon t) p 15.5) as [F2 E2]; try assumption; [apply Rabs_le; lra|lra|].
    rewrite UV in E2. abs E2. split; [exact F2|]. split; apply Rabs_le; lra.
Qed.

Lemma quarter_turn y x : 0 <= x -> - (PI / 2) <= atan2 y x <= PI / 2.
Proof.
  intros H. pose proof PI_RGT_0 as P0. unfold atan2. pose proof (atan_bound (y / x)) as B.
  destruct (Rlt_bool_spec 0 x) as [X|X]; [lra|]. rewrite (Rlt_bool_false x 0) by exact H.
  destruct (Rlt_bool_spec 0 y); [|destruct (Rlt_bool_spec y 0)]; lra.
Qed.

Section Point.
Variables (L : libm ar_double) (pro : bool) (eq pol lat lon pa kpp sc lc latc lonc x z : double).
Hypothesis HL : close_library L.
Hypothesis Fe : is_finite eq = true.
Hypothesis Fp : is_finite pol = true.
Local Notation a := (B2R eq).
Local Notation c := (B2R pol).
Hypothesis Hc : 1e-3 <= c.
Hypothesis Hle : c <= a.
Hypothesis Hflat : a <= 2 * c.
Hypothesis Ha : a <= 1e9.
Hypothesis Flat : is_finite lat = true.
Hypothesis Blat : Rabs (B2R lat) <= 2.
Hypothesis Flon : is_finite lon = true.
Hypothesis Blon : Rabs (B2R lon) <= 7.
Hypothesis Fpa : is_finite pa = true.
Hypothesis Bpa : Rabs (B2R pa) <= 7.
Hypothesis Hview : c = a \/ B2R lat = 0.
Hypothesis Fx : is_finite x = true.
Hypothesis Fz : is_finite z = true.
Variables xt zt : R.
Hypothesis Bx : Rabs xt <= 1e26.
Hypothesis Bz : Rabs zt <= 1e26.
Hypothesis Nx : Rabs (B2R x - xt) <= 1e-15 * Rabs xt + 1e-110.
Hypothesis Nz : Rabs (B2R z - zt) <= 1e-15 * Rabs zt + 1e-110.

Local Notation cosY := (l_cos L (neg (A := ar_double) pa)).
Local Notation sinY := (l_sin L (neg (A := ar_double) pa)).
Local Notation xr := (Bminus mode_NE (Bmult mode_NE x cosY) (Bmult mode_NE z sinY)).
Local Notation zr := (Bplus mode_NE (Bmult mode_NE x sinY) (Bmult mode_NE z cosY)).
Local Notation X := (xt * cos (B2R pa) + zt * sin (B2R pa)).
Local Notation Z := (zt * cos (B2R pa) - xt * sin (B2R pa)).

Lemma abs_cos t : Rabs (cos t) <= 1. Proof. apply Rabs_le, COS_bound. Qed.
Lemma abs_sin t : Rabs (sin t) <= 1. Proof. apply Rabs_le, SIN_bound. Qed.

Lemma rotated : is_finite xr = true /\ is_finite zr = true /\
  Rabs (B2R xr - X) <= 3e-15 * (Rabs xt + Rabs zt) + 1e-100 /\ Rabs (B2R zr - Z) <= 3e-15 * (Rabs xt + Rabs zt) + 1e-100 /\
  Rabs (B2R xr) <= 1e28 /\ Rabs (B2R zr) <= 1e28.
Proof.
  destruct (neg_value pa Fpa) as [Fn En].
  assert (Bn : Rabs (B2R (neg (A := ar_double) pa : double)) <= 20) by (rewrite En, Rabs_Ropp; lra).
  pose proof (cl_cos L HL _ Fn Bn) as Cn. destruct (cl_sin L HL _ Fn Bn) as [Sn _]. rewrite En, cos_neg in Cn. rewrite En, sin_neg in Sn.
  assert (X0 := Rabs_pos xt). assert (Z0 := Rabs_pos zt).
  assert (BX : Rabs (B2R x) <= 1.001 * Rabs xt + 1e-109).
  { replace (B2R x) with (B2R x - xt + xt) by ring. eapply Rle_trans; [apply Rabs_triang|]. lra. }
  assert (BZ : Rabs (B2R z) <= 1.001 * Rabs zt + 1e-109).
  { replace (B2R z) with (B2R z - zt + zt) by ring. eapply Rle_trans; [apply Rabs_triang|]. lra. }
  assert (Ts : Rabs (- sin (B2R pa)) <= 1) by (rewrite Rabs_Ropp; apply abs_sin).
  destruct (sum_near x z _ _ _ _ Fx ltac:(lra) Fz ltac:(lra) Cn (abs_cos _) Sn Ts) as [_ [F1 E1]].
  destruct (sum_near x z _ _ _ _ Fx ltac:(lra) Fz ltac:(lra) Sn Ts Cn (abs_cos _)) as [[F2 E2] _].
  split; [exact F1|]. split; [exact F2|].
  destruct (combination (B2R pa) (B2R x - xt) (B2R z - zt)) as (K1 & _ & _).
  destruct (combination (B2R pa) (B2R z - zt) (B2R x - xt)) as (_ & K2 & _).
  assert (D1 : Rabs (B2R xr - X) <= 3e-15 * (Rabs xt + Rabs zt) + 1e-100).
  { replace (B2R xr - X) with ((B2R xr - (B2R x * cos (B2R pa) - B2R z * - sin (B2R pa))) + ((B2R x - xt) * cos (B2R pa) + (B2R z - zt) * sin (B2R pa))) by ring.
    eapply Rle_trans; [apply Rabs_triang|]. lra. }
  assert (D2 : Rabs (B2R zr - Z) <= 3e-15 * (Rabs xt + Rabs zt) + 1e-100).
  { replace (B2R zr - Z) with ((B2R zr - (B2R x * - sin (B2R pa) + B2R z * cos (B2R pa))) + ((B2R z - zt) * cos (B2R pa) - (B2R x - xt) * sin (B2R pa))) by ring.
    eapply Rle_trans; [apply Rabs_triang|]. lra. }
  split; [exact D1|]. split; [exact D2|].
  destruct (combination (B2R pa) xt zt) as (M1 & _ & _). destruct (combination (B2R pa) zt xt) as (_ & M2 & _). split.
  - replace (B2R xr) with (B2R xr - X + X) by ring. eapply Rle_trans; [apply Rabs_triang|]. lra.
  - replace (B2R zr) with (B2R zr - Z + Z) by ring. eapply Rle_trans; [apply Rabs_triang|]. lra.
Qed.

(** The coefficients of the quadratic equation. *)
Local Notation diff := (Bmult mode_NE (Bminus mode_NE eq pol) (Bplus mode_NE eq pol)).
Local Notation sin2 := (l_pow L (l_sin L lat) (double_of_Z 2)).
Local Notation a2 := (Bmult mode_NE eq eq).
Local Notation c2 := (Bmult mode_NE pol pol).
Local Notation CA := (Bplus mode_NE (Bmult mode_NE diff sin2) c2).
Local Notation CB := (Bmult mode_NE (Bmult mode_NE diff zr) (l_sin L (Bmult mode_NE (double_of_Z 2) lat))).
Local Notation CC := (Bminus mode_NE (Bminus mode_NE (Bplus mode_NE (Bmult mode_NE (Bmult mode_NE a2 zr) zr) (Bmult mode_NE (Bmult mode_NE c2 xr) xr))
              (Bmult mode_NE a2 c2)) (Bmult mode_NE (Bmult mode_NE (Bmult mode_NE diff zr) zr) sin2)).

Lemma flat_zero : is_finite diff = true /\ Rabs (B2R diff) <= 1e20 /\ (c = a -> B2R diff = 0).
Proof.
  destruct (minus_rel eq pol Fe Fp) as [F1 E1]; [apply Rabs_le; lra|]. destruct (plus_rel eq pol Fe Fp) as [F2 E2]; [apply Rabs_le; lra|].
  destruct (minus_round eq pol Fe Fp) as [_ R1]; [apply Rabs_le; lra|].
  pose proof u_value as UV. pose proof eta_tiny as [_ T]. rewrite (Rabs_pos_eq (a - c)) in E1 by lra. rewrite (Rabs_pos_eq (a + c)) in E2 by lra.
  rewrite UV in E1, E2. assert (T' := T). abs E1. abs E2.
  assert (Q1 : Rabs (B2R (Bminus mode_NE eq pol)) <= 2e9) by (apply Rabs_le; lra).
  assert (Q2 : Rabs (B2R (Bplus mode_NE eq pol)) <= 3e9) by (apply Rabs_le; lra).
  assert (Q : Rabs (B2R (Bminus mode_NE eq pol) * B2R (Bplus mode_NE eq pol)) <= 6e18).
  { rewrite Rabs_mult. apply Rle_trans with (2e9 * 3e9); [apply Rmult_le_compat; try apply Rabs_pos; assumption|lra]. }
  destruct (mult_rel _ _ F1 F2) as [F3 E3]; [lra|]. split; [exact F3|]. rewrite UV in E3. split.
  - assert (Q' := Q). abs E3. abs Q'. apply Rabs_le. lra.
  - intros E. apply (zero_product _ _ F1 F2). left. rewrite R1, E, Rminus_eq_0. apply round_0, valid_rnd_N.
Qed.

Local Notation g := (B2R CA).
Local Notation h := (- B2R CC).

Lemma equation :
  is_finite CA = true /\ is_finite CB = true /\ is_finite CC = true /\ B2R CB = 0 /\
  Rabs (g - c * c) <= 1.1 * u * (c * c) /\
  (let v := a * a * (B2R zr * B2R zr) + c * c * (B2R xr * B2R xr) in let w := a * a * (c * c) in
   Rabs (B2R CC - (v - w)) <= 8 * u * (v + w)) /\
  (B2R CC = 0 \/ 1e-60 <= Rabs (B2R CC)).
Proof.
  destruct rotated as (Fxr & Fzr & _ & _ & Bxr & Bzr). destruct flat_zero as (Fd & Bd & Zd).
  destruct (cl_sin L HL lat Flat ltac:(lra)) as [[Fs Es] Zs].
  assert (Bs : Rabs (B2R (l_sin L lat : double)) <= 2).
  { replace (B2R (l_sin L lat : double)) with (B2R (l_sin L lat : double) - sin (B2R lat) + sin (B2R lat)) by ring. eapply Rle_trans; [apply Rabs_triang|]. pose proof (abs_sin (B2R lat)). lra. }
  destruct (cl_square L HL _ Fs Bs) as [F2 Z2].
  assert (Zero : B2R diff = 0 \/ B2R (sin2 : double) = 0) by (destruct Hview as [E|E]; [left; auto|right; auto]).
  destruct (double_of_Z_exact 2 ltac:(lia)) as [F2' E2'].
  destruct (mult_rel (double_of_Z 2) lat F2' Flat) as [Fl El]. { rewrite E2', Rabs_mult, (Rabs_pos_eq 2) by lra. lra. }
  pose proof u_value as UV. pose proof eta_tiny as [_ T].
  assert (Bl : Rabs (B2R (Bmult mode_NE (double_of_Z 2) lat)) <= 20).
  { rewrite E2' in El. rewrite (Rabs_mult 2), (Rabs_pos_eq 2) in El by lra. rewrite UV in El. assert (K := Blat). abs K. abs El. apply Rabs_le. lra. }
  destruct (cl_sin L HL _ Fl Bl) as [[Fs2 Es2] Zs2].
  assert (Pz : Rabs (B2R diff * B2R zr) <= 1e50).
  { rewrite Rabs_mult. apply Rle_trans with (1e20 * 1e28); [apply Rmult_le_compat; try apply Rabs_pos; assumption|lra]. }
  destruct (mult_rel diff zr Fd Fzr ltac:(lra)) as [Fdz Edz].
  assert (Bdz : Rabs (B2R (Bmult mode_NE diff zr)) <= 1e51). { rewrite UV in Edz. assert (Pz' := Pz). abs Edz. abs Pz'. apply Rabs_le. lra. }
  assert (Zdz : B2R diff = 0 -> B2R (Bmult mode_NE diff zr) = 0) by (intros K; apply (zero_product _ _ Fd Fzr); now left).
  assert (Pzz : Rabs (B2R (Bmult mode_NE diff zr) * B2R zr) <= 1e80).
  { rewrite Rabs_mult. apply Rle_trans with (1e51 * 1e28); [apply Rmult_le_compat; try apply Rabs_pos; assumption|lra]. }
  destruct (mult_rel _ zr Fdz Fzr ltac:(lra)) as [Fdzz _].
  assert (Zdzz : B2R diff = 0 -> B2R (Bmult mode_NE (Bmult mode_NE diff zr) zr) = 0) by (intros K; apply (zero_product _ _ Fdz Fzr); left; auto).
  destruct (zero_product _ sin2 Fdzz F2) as [Fl' El']. { destruct Zero as [E|E]; [left|right]; auto. }
  assert (Za : is_finite (Bmult mode_NE diff sin2) = true /\ B2R (Bmult mode_NE diff sin2) = 0) by (apply zero_product; auto).
  destruct (square_near pol Fp ltac:(lra)) as [Fc Ec].
  destruct (zero_plus _ c2 (proj1 Za) Fc (proj2 Za)) as [Fca Eca].
  assert (Zb : B2R (Bmult mode_NE diff zr) = 0 \/ B2R (l_sin L (Bmult mode_NE (double_of_Z 2) lat) : double) = 0).
  { destruct Hview as [E|E]; [left; auto|right]. apply Zs2. apply (zero_product _ _ F2' Flat). now right. }
  destruct (zero_product _ _ Fdz Fs2 Zb) as [Fcb Ecb].
  destruct (coefficient_near eq pol Fe Fp Hc Hle Ha xr zr _ Fxr Fzr Bxr Bzr Fl' El') as (Fcc & Ncc & Gcc).
  split; [exact Fca|]. split; [exact Fcb|]. split; [exact Fcc|]. split; [exact Ecb|]. split; [rewrite Eca; exact Ec|]. split; [exact Ncc|exact Gcc].
Qed.

Lemma square_div (p s : R) : s <> 0 -> p * p / (s * s) = p ^ 2 / s ^ 2.
Proof. intros H. field. exact H. Qed.
Definition ratio := B2R xr ^ 2 / a ^ 2 + B2R zr ^ 2 / c ^ 2.
Local Notation w := (a * a * (c * c)).
Lemma ratio_value : a * a * (B2R zr * B2R zr) + c * c * (B2R xr * B2R xr) = w * ratio.
Proof. unfold ratio. field. lra. Qed.
Lemma w_pos : 0 < w. Proof. apply Rmult_lt_0_compat; apply Rmult_lt_0_compat; lra. Qed.
Lemma ratio_pos : 0 <= ratio. Proof. unfold ratio. pose proof (quotient_pos (B2R xr) a ltac:(lra)). pose proof (quotient_pos (B2R zr) c ltac:(lra)). lra. Qed.
Lemma ratio_near : Rabs (B2R CC - w * (ratio - 1)) <= w * (8 * u * (ratio + 1)).
Proof.
  destruct equation as (_ & _ & _ & _ & _ & N & _). cbv zeta in N. rewrite ratio_value in N.
  replace (w * (ratio - 1)) with (w * ratio - w) by ring. replace (w * (8 * u * (ratio + 1))) with (8 * u * (w * ratio + w)) by ring. exact N.
Qed.
Lemma size_of_it : Rabs (B2R CC) <= 1e80.
Proof.
  destruct rotated as (_ & _ & _ & _ & Bxr & Bzr). destruct equation as (_ & _ & _ & _ & _ & N & _). cbv zeta in N.
  assert (P : forall p, Rabs p <= 1e28 -> 0 <= p * p <= 1e56).
  { intros p Hp. split; [apply Rle_0_sqr|]. rewrite <- (Rabs_pos_eq (p * p)) by apply Rle_0_sqr. rewrite Rabs_mult.
    apply Rle_trans with (1e28 * 1e28); [apply Rmult_le_compat; try apply Rabs_pos; assumption|lra]. }
  assert (A2 : 0 <= a * a <= 1e18) by (split; [apply Rmult_le_pos; lra|apply Rle_trans with (1e9 * 1e9); [apply Rmult_le_compat; lra|lra]]).
  assert (C2 : 0 <= c * c <= 1e18) by (split; [apply Rmult_le_pos; lra|apply Rle_trans with (1e9 * 1e9); [apply Rmult_le_compat; lra|lra]]).
  pose proof (P _ Bxr) as Px. pose proof (P _ Bzr) as Pz. pose proof w_pos.
  assert (M : forall p q, 0 <= p <= 1e18 -> 0 <= q <= 1e56 -> 0 <= p * q <= 1e74).
  { intros p q [P0 P1] [Q0 Q1]. split; [now apply Rmult_le_pos|]. apply Rle_trans with (1e18 * 1e56); [apply Rmult_le_compat; assumption|lra]. }
  pose proof (M _ _ A2 Pz) as M1. pose proof (M _ _ C2 Px) as M2. pose proof (M _ _ A2 (conj (proj1 C2) (Rle_trans _ _ 1e56 (proj2 C2) ltac:(lra)))) as M3.
  pose proof u_value as UV. rewrite UV in N. abs N. apply Rabs_le. lra.
Qed.
Lemma g_bounds : 1e-7 <= g <= 1e19.
Proof.
  destruct equation as (_ & _ & _ & _ & G & _). assert (1e-6 <= c * c <= 1e18).
  { split; [apply Rle_trans with (1e-3 * 1e-3); [lra|apply Rmult_le_compat; lra]|apply Rle_trans with (1e9 * 1e9); [apply Rmult_le_compat; lra|lra]]. }
  pose proof u_value as UV. rewrite UV in G. abs G. lra.
Qed.

Lemma none_seen : double_roots CA CB CC = None -> 1 - 1e-12 <= outline a c (B2R pa) xt zt.
Proof.
  intros H. destruct equation as (FA & FB & FC & ZB & _ & _ & HC). pose proof (roots_none CA CB CC FA FB FC ZB g_bounds HC size_of_it H) as K.
  pose proof ratio_near as N. abs N. pose proof w_pos as W. pose proof ratio_pos as R0.
  assert (Q : 0 < (ratio - 1) + 8 * u * (ratio + 1)).
  { apply Rmult_lt_reg_l with w; [exact W|]. rewrite Rmult_0_r, Rmult_plus_distr_l. lra. }
  destruct rotated as (_ & _ & D1 & D2 & _ & _). unfold outline.
  apply (outside_near a c (B2R pa) Hc Hle Hflat xt zt _ _ D1 D2). fold ratio. pose proof u_value as UV. rewrite UV in Q. lra.
Qed.

Local Notation cosX := (l_cos L lat).
Local Notation sinX := (l_sin L lat).
Lemma some_seen r1 r2 : double_roots CA CB CC = Some (r1, r2) ->
  let y := if flt r2 r1 then r2 else r1 in
  let ry := Bplus mode_NE (Bmult mode_NE y cosX) (Bmult mode_NE zr sinX) in
  let rz := Bminus mode_NE (Bmult mode_NE zr cosX) (Bmult mode_NE y sinX) in
  let la : double := l_atan2 L rz (l_hypot L xr ry) in
  let t : double := l_atan2 L (neg (A := ar_double) xr) ry in
  let lo := if pro then Bplus mode_NE (Bminus mode_NE lon t) (l_pi L) else Bminus mode_NE (Bplus mode_NE lon t) (l_pi L) in
  is_finite la = true /\ is_finite lo = true /\ Rabs (B2R la) <= B2R d_pi2 /\ Rabs (B2R lo) <= 16 /\
  exists latr lonr, Rabs (B2R la - latr) <= 1e-15 /\ Rabs (B2R lo - lonr) <= 1e-14 /\
    is_seen a c pro (B2R lat) (B2R lon) (B2R pa) xt zt latr lonr.
Proof.
  intros H. destruct equation as (FA & FB & FC & ZB & G & _ & HC).
  destruct (roots_some CA CB CC FA FB FC ZB g_bounds HC size_of_it r1 r2 H) as [C0 Y]. cbv zeta in Y. cbv zeta.
  set (y := if flt r2 r1 then r2 else r1) in *. destruct Y as (Fy & Y0 & Ny).
  pose proof ratio_near as N. pose proof w_pos as W. pose proof ratio_pos as R0. pose proof u_value as UV. pose proof g_bounds as GB.
  destruct rotated as (Fxr & Fzr & D1 & D2 & _ & _).
  assert (R1 : ratio <= 1.0001).
  { abs N. assert (Q : (ratio - 1) - 8 * u * (ratio + 1) <= 0).
    { apply Rmult_le_reg_l with w; [exact W|]. rewrite Rmult_0_r, Rmult_minus_distr_l. lra. }
    rewrite UV in Q. lra. }
  destruct (inside_near a c (B2R pa) Hc Hle xt zt _ _ D1 D2) as (Bxr & Bzr & _ & _); [fold ratio; lra|].
  (* the equation of the spheroid *)
  assert (Hy2 : Rabs (B2R y ^ 2 / a ^ 2 + ratio - 1) <= 1e-14).
  { set (q := B2R y ^ 2 / a ^ 2) in *. assert (Q0 : 0 <= q) by (apply quotient_pos; lra).
    assert (Q1 : c * c * (B2R y * B2R y) = w * q) by (unfold q; field; lra).
    assert (Y2 : 0 <= B2R y * B2R y) by apply Rle_0_sqr.
    assert (Gq : Rabs (g * (B2R y * B2R y) - w * q) <= w * (1.1 * u * q)).
    { rewrite <- Q1, <- Rmult_minus_distr_r, Rabs_mult, (Rabs_pos_eq (B2R y * B2R y)) by exact Y2.
      replace (w * (1.1 * u * q)) with (1.1 * u * (c * c) * (B2R y * B2R y)) by (transitivity (1.1 * u * (w * q)); [rewrite <- Q1|]; ring).
      apply Rmult_le_compat_r; [exact Y2|exact G]. }
    set (d := h / w). assert (Hd : h = w * d) by (unfold d; field; lra). assert (Hd' : B2R CC = - (w * d)) by (rewrite <- Hd; ring).
    assert (D0 : 0 <= d) by (unfold d; apply Rmult_le_pos; [lra|left; now apply Rinv_0_lt_compat]).
    assert (E1 : Rabs (- d - (ratio - 1)) <= 8 * u * (ratio + 1)).
    { apply Rmult_le_reg_l with w; [exact W|]. rewrite <- (Rabs_pos_eq w) at 1 by lra. rewrite <- Rabs_mult. replace (w * (- d - (ratio - 1))) with (B2R CC - w * (ratio - 1)) by (rewrite Hd'; ring). exact N. }
    assert (E2 : Rabs (q - d) <= 12 * u * d + 1.1 * u * q).
    { apply Rmult_le_reg_l with w; [exact W|]. rewrite <- (Rabs_pos_eq w) at 1 by lra. rewrite <- Rabs_mult.
      replace (w * (q - d)) with ((g * (B2R y * B2R y) - h) - (g * (B2R y * B2R y) - w * q)) by (rewrite Hd; ring).
      unfold Rminus at 1. eapply Rle_trans; [apply Rabs_triang|]. rewrite Rabs_Ropp.
      replace (w * (12 * u * d + 1.1 * u * q)) with (12 * u * h + w * (1.1 * u * q)) by (rewrite Hd; ring). lra. }
    rewrite UV in E1, E2. clear - R0 R1 Q0 D0 E1 E2. abs E1. abs E2. apply Rabs_le. lra. }
  assert (By : Rabs (B2R y) <= 1.001 * a).
  { apply quotient_le; try lra. clear - Hy2 R0. abs Hy2. lra. }
  (* the tilt *)
  pose proof (cl_cos L HL lat Flat ltac:(lra)) as Cl. destruct (cl_sin L HL lat Flat ltac:(lra)) as [Sl _].
  destruct (sum_near y zr _ _ _ _ Fy ltac:(lra) Fzr ltac:(lra) Cl (abs_cos _) Sl (abs_sin _)) as [[Fry Ery] _].
  destruct (sum_near zr y _ _ _ _ Fzr ltac:(lra) Fy ltac:(lra) Cl (abs_cos _) Sl (abs_sin _)) as [_ [Frz Erz]].
  set (ry := Bplus mode_NE (Bmult mode_NE y cosX) (Bmult mode_NE zr sinX)) in *.
  set (rz := Bminus mode_NE (Bmult mode_NE zr cosX) (Bmult mode_NE y sinX)) in *.
  assert (Ery' : Rabs (B2R ry - (B2R y * cos (B2R lat) + B2R zr * sin (B2R lat))) <= 1e-14 * a).
  { eapply Rle_trans; [exact Ery|]. clear - By Bzr Hle Hc. lra. }
  assert (Erz' : Rabs (B2R rz - (B2R zr * cos (B2R lat) - B2R y * sin (B2R lat))) <= 1e-14 * a).
  { eapply Rle_trans; [exact Erz|]. clear - By Bzr Hle Hc. lra. }
  assert (Bry : Rabs (B2R ry) <= 3 * a).
  { destruct (combination (B2R lat) (B2R y) (B2R zr)) as (K & _ & _).
    replace (B2R ry) with (B2R ry - (B2R y * cos (B2R lat) + B2R zr * sin (B2R lat)) + (B2R y * cos (B2R lat) + B2R zr * sin (B2R lat))) by ring.
    eapply Rle_trans; [apply Rabs_triang|]. clear - K Ery' By Bzr Hle Hc. lra. }
  destruct (cl_hypot L HL xr ry Fxr Fry) as ([Fh Eh] & H0); [clear - Bxr Ha; lra|clear - Bry Ha; lra|].
  set (hh := l_hypot L xr ry) in *.
  assert (Eh' : Rabs (B2R (hh : double) - hypot (B2R xr) (B2R ry)) <= 1e-14 * a).
  { assert (hypot (B2R xr) (B2R ry) <= 4.1 * a).
    { unfold hypot. rewrite <- (sqrt_square (4.1 * a)) by lra. apply sqrt_le_1_alt.
      assert (P : forall p k, 0 <= k -> Rabs p <= k * a -> p * p <= k * k * (a * a)).
      { intros p k K Hp. rewrite <- (Rabs_pos_eq (p * p)) by apply Rle_0_sqr. rewrite Rabs_mult. replace (k * k * (a * a)) with (k * a * (k * a)) by ring.
        apply Rmult_le_compat; try apply Rabs_pos; assumption. }
      pose proof (P _ 1.001 ltac:(lra) Bxr). pose proof (P _ 3 ltac:(lra) Bry). assert (0 <= a * a) by apply Rle_0_sqr.
      replace (4.1 * a * (4.1 * a)) with (4.1 * 4.1 * (a * a)) by ring. lra. }
    eapply Rle_trans; [exact Eh|]. clear - H1 Hc Hle. lra. }
  (* the angles *)
  destruct (direction L xr ry HL Fxr Fry) as (Ft & Bt & t' & Et & Ct & St).
  set (t := l_atan2 L (neg (A := ar_double) xr) ry) in *.
  assert (Hv : c = a \/ (sin (B2R lat) = 0 /\ cos (B2R lat) = 1)).
  { destruct Hview as [E|E]; [now left|right]. rewrite E. split; [apply sin_0|apply cos_0]. }
  assert (Hin : Rabs (B2R y ^ 2 / a ^ 2 + B2R xr ^ 2 / a ^ 2 + B2R zr ^ 2 / c ^ 2 - 1) <= 1e-14).
  { replace (B2R y ^ 2 / a ^ 2 + B2R xr ^ 2 / a ^ 2 + B2R zr ^ 2 / c ^ 2 - 1) with (B2R y ^ 2 / a ^ 2 + ratio - 1) by (unfold ratio; ring). exact Hy2. }
  destruct (surface_near pro a c (B2R lat) (B2R lon) (B2R pa) Hc Hle Hflat xt zt _ _ D1 D2 (B2R y) (B2R ry) (B2R rz) (B2R (hh : double)) t'
    Hin Y0 Hv Ery' Erz' H0 Eh' (conj Ct St)) as (Nz0 & P & _ & On & Pos & Pr & Tw).
  destruct (cl_atan2 L HL rz hh Frz Fh) as (Fla & _ & Nla & _). cbv zeta in Fla, Nla.
  assert (Nz1 : B2R rz <> 0 \/ 0 < B2R (hh : double)). { destruct Nz0 as [K|K]; [right|now left]. clear - K H0. lra. }
  destruct (Nla Nz1) as [Ela Bla]. specialize (Bla H0).
  destruct pi_val as [Fpi Epi]. rewrite (cl_pi L HL). pose proof PI_4 as P4. pose proof PI_RGT_0 as P0. pose proof eta_tiny as [_ T].
  assert (Bpi : Rabs (B2R d_pi) <= 4.01) by (abs Epi; apply Rabs_le; lra).
  assert (Blo := Blon). abs Blo. abs Bt. abs Bpi. abs Et. abs Epi.
  split; [exact Fla|].
  set (lo := if pro then _ else _).
  assert (Lo : is_finite lo = true /\ Rabs (B2R lo - (if pro then B2R lon - t' + PI else B2R lon + t' - PI)) <= 1e-14 /\ Rabs (B2R lo) <= 16).
  { exact (longitude_sum pro lon t d_pi t' Flon Ft Fpi Blo Bt Bpi Et Epi). }
  destruct Lo as (Flo & Elo & Blo'). split; [exact Flo|]. split; [exact Bla|]. split; [exact Blo'|].
  exists (atan2 (B2R rz) (B2R (hh : double))), (if pro then B2R lon - t' + PI else B2R lon + t' - PI).
  split; [exact Ela|]. split; [exact Elo|]. split; [exact (quarter_turn _ _ H0)|]. exists P. split; [exact On|]. split; [exact Pos|]. split; [exact Pr|exact Tw].
Qed.

Theorem point_near :
  match ortho_point (A := ar_double) L double_roots pro eq pol (@Ortho ar_double lat lon pa kpp sc lc latc lonc false) x z with
  | None => 1 - 1e-12 <= outline a c (B2R pa) xt zt
  | Some (la, lo) =>
      is_finite (la : double) = true /\ is_finite (lo : double) = true /\ Rabs (B2R (la : double)) <= B2R d_pi2 /\ Rabs (B2R (lo : double)) <= 16 /\
      exists latr lonr, Rabs (B2R (la : double) - latr) <= 1e-15 /\ Rabs (B2R (lo : double) - lonr) <= 1e-14 /\
        is_seen a c pro (B2R lat) (B2R lon) (B2R pa) xt zt latr lonr
  end.
Proof.
  unfold ortho_point. cbn [o_lat o_lon o_pa o_polar a_add a_sub a_mul a_lt a_of_Z ar_double].
  destruct (double_roots CA CB CC) as [[r1 r2]|] eqn:R.
  - exact (some_seen r1 r2 R).
  - exact (none_seen R).
Qed.
End Point.
