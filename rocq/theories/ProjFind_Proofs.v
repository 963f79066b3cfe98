(** The projections with the real root finder (C50, C51). *)
From Coq Require Import List ZArith Reals Lra Lia Bool.
From Coquelicot Require Import Coquelicot.
From Flocq Require Import Core BinarySingleNaN.
From Verif Require Import Base BaseFacts Flt FltFacts Num Maths_Model Maths_Spec Maths_Proofs Spheroid_Model
  Spheroid_Proofs Proj_Model Proj_Spec Proj_Proofs ProjGrid_Proofs ProjGridR_Proofs ProjMerc_Proofs ProjPolar_Proofs.
Import ListNotations.
Open Scope R_scope.
Local Notation mx := isometric_latitude.
Local Notation sr := stereographic_radius.
Local Notation eps := (bpow radix2 (-52)).

(** * The search *)
Section Search.
Context (f : R -> num) (F : R -> R) (lo hi y z : R) (up : bool).
Context (Lh : lo < hi) (Hz : lo < z <= hi) (Hf : forall x, lo <= x <= hi -> f x = Num (F x))
  (Cross : forall x, lo <= x <= hi -> (F x < y <-> if up then x < z else z < x)).

(** The last step was a Newton step from [x0]. *)
Definition stopped (x0 r : R) : Prop :=
  exists d, lo <= x0 <= hi /\ first_derivative f (Num x0) = Num d /\ d <> 0 /\
    Rabs ((F x0 - y) / d) < 2 * eps /\ Rabs (r - x0) < 2 * eps.

Definition around (s : rf_state) : Prop :=
  rf_y0 s = app f (rf_x0 s) /\
  exists a b, rf_xl s = Num a /\ rf_xh s = Num b /\ if up then a <= z <= b else b <= z <= a.

Lemma almost_zero_num d : almost_zero (A := ar_num) eps_num (Num d) 2 = true -> Rabs d < 2 * eps.
Proof.
  unfold almost_zero, eps_num. cbn [a_lt a_abs a_mul a_of_Z ar_num num_abs num2 num_lt].
  case Rlt_bool_spec; [lra|discriminate].
Qed.

Lemma search_loop_near n : forall s, good lo hi s -> around s -> forall v, rf_loop f n (Num y) s = Ok v ->
  exists r, v = Num r /\ lo <= r <= hi /\ (Rabs (r - z) < 2 * eps \/ exists x0, stopped x0 r).
Proof.
  induction n as [|n IH]; intros s G [Y A] v; [discriminate|]. cbn [rf_loop].
  destruct (step_point f y lo hi s G) as (dx' & x0' & Es & Pt).
  destruct G as (a & b & c & Ea & Eb & Ec & Ia & Ib & Ic).
  destruct A as (a' & b' & Ea' & Eb' & Az). assert (a' = a) by congruence. assert (b' = b) by congruence. subst a' b'.
  destruct (rf_step f (Num y) s) as [s'|w] eqn:St.
  - destruct (almost_zero (A := ar_num) eps_num dx' 2); [discriminate|].
    destruct Pt as [[-> ->]|(r & -> & Hr)].
    { destruct (nlt _ _) in Es; injection Es as ->; rewrite nan_loop by reflexivity; discriminate. }
    cbn [app] in Es. rewrite (Hf r Hr) in Es. cbn [nlt a_lt ar_num num_lt] in Es. unfold nlt in Es. cbn [a_lt ar_num num_lt] in Es.
    pose proof (Cross r Hr) as Cr.
    destruct (Rlt_bool_spec (F r) y) as [L|L] in Es; injection Es as ->; apply IH.
    + exists r, b, r. cbn. auto 10.
    + split; [cbn; symmetry; apply Hf; exact Hr|]. exists r, b. cbn. split; [reflexivity|]. split; [exact Eb|].
      apply Cr in L. destruct up; lra.
    + exists a, r, r. cbn. auto 10.
    + split; [cbn; symmetry; apply Hf; exact Hr|]. exists a, r. cbn. split; [exact Ea|]. split; [reflexivity|].
      destruct up; (destruct (Rlt_le_dec r z) as [K|K]; [try (apply Cr in K; lra); lra | lra]) ||
        (destruct (Rlt_le_dec z r) as [K|K]; [apply Cr in K; lra | lra]).
  - intros H; injection H as <-. clear Es Pt.
    destruct s as [xl xh x0 y0 dx dxold]; cbn [rf_xl rf_xh rf_x0 rf_y0 rf_dx] in *; subst. cbn [app] in *. rewrite (Hf c Ic) in *.
    unfold rf_step in St.
    match type of St with context [if ?cond || ?cond2 then _ else _] => destruct (cond || cond2) eqn:Br end.
    + assert (D : ndiv (nsub (Num b) (Num a)) (Num 2) = Num ((b - a) / 2)).
      { cbn. rewrite Req_bool_false by lra. reflexivity. }
      rewrite D in St. destruct (almost_zero (A := ar_num) eps_num (Num ((b - a) / 2)) 2) eqn:AZ; [|destruct (nlt _ _) in St; discriminate].
      injection St as <-. apply almost_zero_num in AZ. exists (a + (b - a) / 2). split; [reflexivity|].
      split; [destruct up; lra|]. left. apply Rabs_def2 in AZ. apply Rabs_def1; destruct up; lra.
    + apply orb_false_iff in Br as [Br _].
      destruct (first_derivative f (Num c)) as [|d] eqn:Ed.
      { change (ndiv (nsub (Num (F c)) (Num y)) NaN) with NaN in St. rewrite nan_not_zero in St. destruct (nlt _ _) in St; discriminate. }
      unfold ndiv, nsub in St. cbn [a_sub a_div ar_num num2 num_div] in St.
      destruct (Req_bool_spec d 0) as [Z|Z].
      * rewrite nan_not_zero in St. destruct (nlt _ _) in St; discriminate.
      * destruct (almost_zero (A := ar_num) eps_num (Num ((F c - y) / d)) 2) eqn:AZ; [|destruct (nlt _ _) in St; discriminate].
        injection St as <-. apply almost_zero_num in AZ. eexists. split; [reflexivity|]. split.
        { apply (good_minmax lo hi a b); auto. apply newton_between; [exact Z|]. cbn in Br.
          match type of Br with Rlt_bool 0 ?t = false => destruct (Rlt_bool_spec 0 t); [discriminate|lra] end. }
        right. exists c, d. repeat split; auto; try apply Ic.
        replace (c - (F c - y) / d - c) with (- ((F c - y) / d)) by ring. rewrite Rabs_Ropp. exact AZ.
Qed.

Lemma search_near v : root_find f (Num y) (Num lo) (Num hi) = Ok v ->
  exists r, v = Num r /\ lo <= r <= hi /\
    ((r = lo \/ r = hi) /\ indistinguishable (F r) y \/ Rabs (r - z) < 2 * eps \/ exists x0, stopped x0 r).
Proof.
  unfold root_find. destruct (_ || _); [discriminate|]. cbn [app]. rewrite !Hf by lra.
  destruct (is_almost_equal (A := ar_num) eps_num tiny_num (Num (F lo)) (Num y)) eqn:A1.
  { intros E; injection E as <-. exists lo. split; [reflexivity|]. split; [lra|]. left. rewrite <- is_almost_equal_spec. auto. }
  destruct (is_almost_equal (A := ar_num) eps_num tiny_num (Num (F hi)) (Num y)) eqn:A2.
  { intros E; injection E as <-. exists hi. split; [reflexivity|]. split; [lra|]. left. rewrite <- is_almost_equal_spec. auto. }
  intros E. pose proof (start_good f y lo hi) as G. rewrite Rmin_left, Rmax_right in G by lra.
  destruct (search_loop_near 100 _ G) with (v := v) as (r & Hr & Br & H); [|exact E|exists r; auto].
  unfold rf_start. cbn [app]. rewrite Hf by lra. unfold nlt at 1. cbn [a_lt ar_num num_lt].
  pose proof (Cross lo ltac:(lra)) as Cl.
  case Rlt_bool_spec; intros L.
  - split; [reflexivity|]. exists hi, lo. split; [reflexivity|]. split; [reflexivity|].
    destruct up; [|lra]. assert (F lo < y) by (apply Cl; lra). lra.
  - split; [reflexivity|]. exists lo, hi. split; [reflexivity|]. split; [reflexivity|].
    destruct up; [lra|]. destruct L as [L|L]; [apply Cl in L; lra|]. rewrite L, is_almost_equal_refl in A1. discriminate.
Qed.

(** A Newton step that short means a root near by, if the slope of the function
    varies little around [x0]. *)
Context (G G' : R -> R) (sg : R) (Sg : if up then sg = 1 else sg = -1).

Lemma mean (a b m K : R) : a < b -> (forall x, a <= x <= b -> is_derive G x (G' x)) ->
  (forall x, a <= x <= b -> m <= sg * G' x <= K) -> m * (b - a) <= sg * (G b - G a) <= K * (b - a).
Proof.
  intros L D B. destruct (MVT_gen G a b G') as (c & Hc & E).
  - intros x Hx. rewrite Rmin_left, Rmax_right in Hx by lra. apply D. lra.
  - intros x Hx. rewrite Rmin_left, Rmax_right in Hx by lra.
    apply continuity_pt_filterlim. apply (ex_derive_continuous G). exists (G' x). apply D. lra.
  - rewrite Rmin_left, Rmax_right in Hc by lra. rewrite E, <- Rmult_assoc. specialize (B c Hc). split; nra.
Qed.

Lemma stopped_near x0 r rad m M : stopped x0 r -> x0 <= 2 -> 8 * eps <= rad -> 0 < m -> 1 <= M ->
  8 / 3 * eps * M <= rad ->
  (forall x, x0 - rad <= x <= x0 + rad -> f x = Num (G x)) ->
  (forall x, x0 - rad <= x <= x0 + rad -> is_derive G x (G' x)) ->
  (forall x, x0 - rad <= x <= x0 + rad -> m <= sg * G' x <= M * m) ->
  Rabs (x0 - z) <= 8 / 3 * eps * M.
Proof.
  intros (d & Ix & Ed & Nd & Sd & _) X2 R8 M0 M1 Rm Ef De Bo. pose proof (bpow_gt_0 radix2 (-52)) as E0.
  assert (FG : F x0 = G x0). { assert (Num (F x0) = Num (G x0)) as [= E]; [|exact E]. rewrite <- Hf by exact Ix. apply Ef. lra. }
  set (h := 2 * eps * (if Rlt_bool x0 1 then 1 else x0)).
  assert (Hh : 0 < h /\ 2 * h <= 8 * eps).
  { unfold h. destruct (Rlt_bool_spec x0 1); nra. }
  assert (Dd : d = five_point G x0 h).
  { unfold first_derivative, nlt in Ed. cbn [a_lt ar_num num_lt] in Ed.
    assert (Eh : (if Rlt_bool x0 1 then nmul (Num 2) eps_num else nmul (nmul (Num 2) eps_num) (Num x0)) = Num h).
    { unfold h, eps_num, nmul. cbn. destruct (Rlt_bool_spec x0 1); f_equal; ring. }
    rewrite Eh in Ed. revert Ed. unfold nsub, nadd, nmul, ndiv. cbn [a_sub a_add a_mul a_div ar_num num2 app num_div].
    rewrite !Ef by lra. cbn [num2 num_div]. rewrite Req_bool_false by lra. intros [= <-]. reflexivity. }
  assert (Bd : Rabs d <= 4 / 3 * (M * m)).
  { pose proof (mean (x0 - h) (x0 + h) m (M * m) ltac:(lra) ltac:(intros; apply De; lra) ltac:(intros; apply Bo; lra)) as B1.
    pose proof (mean (x0 - 2 * h) (x0 + 2 * h) m (M * m) ltac:(lra) ltac:(intros; apply De; lra) ltac:(intros; apply Bo; lra)) as B2.
    replace (x0 + h - (x0 - h)) with (2 * h) in B1 by ring. replace (x0 + 2 * h - (x0 - 2 * h)) with (4 * h) in B2 by ring.
    assert (E : d * (12 * h) = 8 * (G (x0 + h) - G (x0 - h)) - (G (x0 + 2 * h) - G (x0 - 2 * h))).
    { rewrite Dd. unfold five_point. field. lra. }
    assert (Mm : m <= M * m) by nra.
    assert (B : Rabs (d * (12 * h)) <= 16 * (M * m) * h).
    { rewrite E. set (A1 := G (x0 + h) - G (x0 - h)) in *. set (A2 := G (x0 + 2 * h) - G (x0 - 2 * h)) in *.
      clearbody A1 A2. assert (0 < m * h) by nra. assert (m * h <= M * m * h) by (apply Rmult_le_compat_r; lra).
      destruct up; subst sg; apply Rabs_le; split; nra. }
    rewrite Rabs_mult, (Rabs_right (12 * h)) in B by lra. nra. }
  assert (Sy : Rabs (G x0 - y) < 8 / 3 * eps * M * m).
  { rewrite FG in Sd. unfold Rdiv in Sd. rewrite Rabs_mult, Rabs_inv in Sd.
    assert (P : 0 < Rabs d) by (apply Rabs_pos_lt; exact Nd).
    apply (Rmult_lt_compat_r (Rabs d)) in Sd; [|exact P]. rewrite Rmult_assoc, Rinv_l, Rmult_1_r in Sd by lra. nra. }
  (* any point t between x0 and z, not beyond the ball, is near *)
  assert (T : forall t, x0 - rad <= t <= x0 + rad -> (x0 < t < z \/ z < t < x0) -> Rabs (x0 - t) * m < 8 / 3 * eps * M * m).
  { intros t Ht Hb. apply Rle_lt_trans with (2 := Sy).
    assert (It : lo <= t <= hi) by lra. pose proof (Cross t It) as Ct.
    assert (FT : F t = G t). { assert (Num (F t) = Num (G t)) as [= E]; [|exact E]. rewrite <- Hf by exact It. apply Ef. lra. }
    rewrite FT in Ct.
    destruct Hb as [Hb|Hb].
    - pose proof (mean x0 t m (M * m) ltac:(lra) ltac:(intros; apply De; lra) ltac:(intros; apply Bo; lra)) as [B _].
      rewrite (Rabs_left (x0 - t)) by lra. destruct up; subst sg.
      + assert (G t < y) by (apply Ct; lra). rewrite Rabs_left; nra.
      + assert (~ G t < y) by (intros K; apply Ct in K; lra). rewrite Rabs_right; nra.
    - pose proof (mean t x0 m (M * m) ltac:(lra) ltac:(intros; apply De; lra) ltac:(intros; apply Bo; lra)) as [B _].
      rewrite (Rabs_right (x0 - t)) by lra. destruct up; subst sg.
      + assert (~ G t < y) by (intros K; apply Ct in K; lra). rewrite Rabs_right; nra.
      + assert (G t < y) by (apply Ct; lra). rewrite Rabs_left; nra. }
  set (w := 8 / 3 * eps * M) in *.
  assert (W0 : 0 < w) by (unfold w; nra).
  destruct (Rle_lt_dec (Rabs (x0 - z)) w) as [K|K]; [exact K|]. exfalso.
  (* otherwise the point at distance w towards z contradicts T *)
  destruct (Rlt_le_dec x0 z) as [L|L].
  - rewrite Rabs_left in K by lra. specialize (T (x0 + w) ltac:(lra) ltac:(left; lra)).
    replace (x0 - (x0 + w)) with (- w) in T by ring. rewrite Rabs_Ropp, Rabs_right in T by lra. lra.
  - rewrite Rabs_right in K by lra. specialize (T (x0 - w) ltac:(lra) ltac:(right; lra)).
    replace (x0 - (x0 - w)) with w in T by ring. rewrite Rabs_right in T by lra. lra.
Qed.
End Search.

(** * Elementary bounds *)
Lemma sin_triple a b : 0 <= a -> a <= b -> b <= 3 * a -> b <= PI -> a <= PI / 2 -> sin b <= 3 * sin a.
Proof.
  intros A0 AB B3 BP AP. pose proof PI_RGT_0.
  replace b with (a + (b - a)) by ring. set (c := b - a). assert (C0 : 0 <= c <= 2 * a) by (unfold c; lra).
  rewrite sin_plus.
  assert (S1 : 0 <= sin a) by (apply sin_ge_0; lra). assert (S2 : 0 <= sin c) by (apply sin_ge_0; unfold c; lra).
  pose proof (COS_bound a). pose proof (COS_bound c).
  assert (sin a * cos c <= sin a) by nra. assert (cos a * sin c <= sin c) by nra.
  assert (sin c <= 2 * sin a).
  { replace c with (2 * (c / 2)) by field. rewrite sin_2a.
    assert (0 <= sin (c / 2)) by (apply sin_ge_0; unfold c in *; lra). pose proof (COS_bound (c / 2)).
    assert (sin (c / 2) <= sin a) by (apply sin_incr_1; lra). nra. }
  lra.
Qed.

Lemma sin_least a b : 0 <= a -> a <= b -> b <= PI - a -> a <= PI / 2 -> sin a <= sin b.
Proof.
  intros A0 AB BP AP. pose proof PI_RGT_0. destruct (Rle_lt_dec b (PI / 2)) as [L|L].
  - apply sin_incr_1; lra.
  - rewrite <- (sin_PI_x b). apply sin_incr_1; lra.
Qed.

Lemma exp_le_ a b : a <= b -> exp a <= exp b.
Proof. intros [H| ->]; [left; apply exp_increasing; exact H|lra]. Qed.

Section Ecc.
Context (e : R) (He : 0 <= e < 1).

Lemma one_minus : 0 < 1 - e ^ 2 <= 1.
Proof. split; nra. Qed.
Lemma inv_one_minus : 1 <= / (1 - e ^ 2).
Proof. pose proof one_minus as O. rewrite <- Rinv_1 at 1. apply Rinv_le_contravar; lra. Qed.
Lemma sine_term x : 1 - e ^ 2 <= 1 - (e * sin x) ^ 2 <= 1.
Proof. pose proof (SIN_bound x) as S. assert (0 <= sin x ^ 2 <= 1) by (split; nra). assert (0 <= e ^ 2 < 1) by (split; nra). rewrite Rpow_mult_distr. split; nra. Qed.

(** The isometric latitude takes every value. *)
Lemma mx_onto y : exists z, - (PI / 2) < z < PI / 2 /\ mx e z = y.
Proof.
  set (B := e / 2 * (ln (1 + e) - ln (1 - e))).
  assert (Bt : forall x, - B <= e / 2 * (ln (1 - e * sin x) - ln (1 + e * sin x)) <= B).
  { intros x. pose proof (SIN_bound x) as S. unfold B.
    assert (Ln : forall u, 1 - e <= u <= 1 + e -> ln (1 - e) <= ln u <= ln (1 + e)).
    { intros u U. split; apply ln_le; lra. }
    pose proof (Ln (1 - e * sin x) ltac:(split; nra)). pose proof (Ln (1 + e * sin x) ltac:(split; nra)). split; nra. }
  set (at_ := fun t => 2 * atan (exp t) - PI / 2).
  assert (At : forall t, - (PI / 2) < at_ t < PI / 2 /\ t - B <= mx e (at_ t) <= t + B).
  { intros t. assert (P : 0 < atan (exp t)) by (rewrite <- atan_0; apply atan_increasing, exp_pos).
    pose proof (atan_bound (exp t)) as U.
    assert (I : - (PI / 2) < at_ t < PI / 2) by (unfold at_; lra). split; [exact I|].
    rewrite (mx_split e He _ I). specialize (Bt (at_ t)).
    destruct (half_angle _ I) as [Sp Cp]. rewrite <- ln_div by assumption.
    change (sin ?a / cos ?a) with (tan a). replace (PI / 4 + at_ t / 2) with (atan (exp t)) by (unfold at_; field).
    rewrite tan_atan, ln_exp. lra. }
  destruct (At (y - B - 1)) as (I1 & V1). destruct (At (y + B + 1)) as (I2 & V2).
  assert (BB : 0 <= B) by (specialize (Bt 0); lra).
  assert (L : at_ (y - B - 1) < at_ (y + B + 1)).
  { unfold at_. assert (atan (exp (y - B - 1)) < atan (exp (y + B + 1))) by (apply atan_increasing, exp_increasing; lra). lra. }
  destruct (Ranalysis5.IVT_interv (fun x => mx e x - y) (at_ (y - B - 1)) (at_ (y + B + 1))) as (z & Hz & E).
  - intros x Hx. apply continuity_pt_minus; [|apply continuity_pt_const; intros ? ?; reflexivity].
    apply continuity_pt_filterlim. apply (ex_derive_continuous (mx e)). eexists. apply mx_derive; [exact He|lra].
  - exact L.
  - lra.
  - lra.
  - exists z. split; [lra|]. cbv beta in E. lra.
Qed.
End Ecc.

(** * Mercator *)
Section MercatorFind.
Context (low high eq pol : R) (Hp : 0 < pol) (Hep : pol <= eq) (High : 0 < high).
Local Notation e := (first_eccentricity eq pol).
Let He := ecc_range eq pol Hp Hep.
Local Notation L := (libm_pole PI low high).
Local Notation fx := (fun r => mercator_x L (Num e : ar_num) (Num r : ar_num) : num).

Lemma oblate_ratio : / (1 - e ^ 2) = (eq / pol) ^ 2.
Proof. rewrite (ecc_sq eq pol Hp Hep). replace (1 - (1 - (pol / eq) ^ 2)) with ((pol / eq) ^ 2) by ring. field. lra. Qed.

Lemma pole_x x : - (PI / 2) < x < PI / 2 -> fx x = Num (mx e x).
Proof.
  intros H. rewrite <- (mercator_x_num low e x He H). unfold mercator_x. nums. cbn [l_tan libm_pole l_pi4 l_sin l_log l_pow libm_num].
  rewrite (num_divide x 2) by lra. nums. destruct (half_angle x H) as [_ C]. rewrite !Req_bool_false by lra. reflexivity.
Qed.

Lemma pole_north : exists v, fx (PI / 2) = Num v.
Proof.
  unfold mercator_x. cbn [l_tan libm_pole l_pi4 l_sin l_log l_pow libm_num]. nums. pose proof (t_bound e He (PI / 2)) as T.
  rewrite !num_divide by lra. nums. replace (PI / 4 + PI / 2 / 2) with (PI / 2) by field. rewrite cos_PI2, Req_bool_true by reflexivity.
  rewrite (Req_bool_false (e / 2)) by lra. rewrite Rlt_bool_true by (apply quotient_pos; exact He). nums.
  rewrite Rlt_bool_true; [eauto|]. apply Rmult_lt_0_compat; [exact High|apply exp_pos].
Qed.

Lemma pole_south : fx (- (PI / 2)) = Num low.
Proof.
  unfold mercator_x. cbn [l_tan libm_pole l_pi4 l_sin l_log l_pow libm_num]. nums. pose proof (t_bound e He (- (PI / 2))) as T.
  rewrite !num_divide by lra. nums. replace (PI / 4 + - (PI / 2) / 2) with 0 by field. rewrite cos_0, Req_bool_false by lra.
  rewrite (Req_bool_false (e / 2)) by lra. rewrite Rlt_bool_true by (apply quotient_pos; exact He). nums.
  rewrite tan_0, Rmult_0_l, Rlt_bool_false, Req_bool_true by lra. reflexivity.
Qed.

Lemma merc_found y v : low < y -> root_find fx (Num y) (Num (- (PI / 2))) (Num (PI / 2)) = Ok v ->
  exists latg z, v = Num latg /\ - (PI / 2) <= latg <= PI / 2 /\ - (PI / 2) < z < PI / 2 /\ mx e z = y /\
    (Rabs (latg - z) < 10 * eps * (eq / pol) ^ 2 \/ PI / 2 - Rabs latg < 18 * eps * (eq / pol) ^ 2).
Proof.
  intros Ly E. pose proof PI_RGT_0 as Pi. pose proof (bpow_gt_0 radix2 (-52)) as E0.
  destruct (mx_onto e He y) as (z & Hz & Ez). rewrite <- oblate_ratio.
  pose proof (one_minus e He) as O. pose proof (inv_one_minus e He) as Oi. set (q := / (1 - e ^ 2)) in *.
  destruct pole_north as (vn & En).
  set (F := fun x => if Req_EM_T x (PI / 2) then vn else if Req_EM_T x (- (PI / 2)) then low else mx e x).
  assert (HF : forall x, - (PI / 2) <= x <= PI / 2 -> fx x = Num (F x)).
  { intros x Hx. unfold F. destruct (Req_EM_T x (PI / 2)) as [->|N1]; [exact En|].
    destruct (Req_EM_T x (- (PI / 2))) as [->|N2]; [exact pole_south|]. apply pole_x. lra. }
  assert (Nn : ~ vn < y).
  { intros K. unfold root_find in E. cbn [app] in E. rewrite En, pole_south in E. unfold nlt in E. cbn [a_lt ar_num num_lt] in E.
    rewrite (Rlt_bool_true low y Ly), (Rlt_bool_true vn y K) in E. rewrite orb_true_r in E. discriminate. }
  assert (Cross : forall x, - (PI / 2) <= x <= PI / 2 -> (F x < y <-> x < z)).
  { intros x Hx. unfold F. destruct (Req_EM_T x (PI / 2)) as [->|N1]; [split; lra|].
    destruct (Req_EM_T x (- (PI / 2))) as [->|N2]; [split; lra|]. rewrite <- Ez. split; intros K.
    - destruct (Rtotal_order x z) as [A|[->|A]]; [exact A|lra|]. pose proof (mx_increasing e He z x ltac:(lra) A ltac:(lra)). lra.
    - apply mx_increasing; [exact He|lra..]. }
  destruct (search_near fx F (- (PI / 2)) (PI / 2) y z true ltac:(lra) ltac:(lra) HF Cross v E) as (r & -> & Ir & [[Er _]|[Nr|(x0 & St)]]);
    exists r, z; (split; [reflexivity|]); (split; [exact Ir|]); (split; [exact Hz|]); (split; [exact Ez|]).
  - right. assert (A : Rabs r = PI / 2) by (destruct Er as [->| ->]; [rewrite Rabs_Ropp|]; apply Rabs_right; lra). rewrite A. nra.
  - left. nra.
  - assert (St' := St). destruct St' as (d & Ix & _ & _ & _ & Rr).
    destruct (Rlt_le_dec (PI / 2 - Rabs x0) (16 * eps * q)) as [Near|Far].
    + right. pose proof (Rabs_triang_inv x0 r). rewrite Rabs_minus_sym in Rr. nra.
    + left. set (p0 := PI / 2 - Rabs x0) in *. set (s0 := sin (p0 / 2)).
      assert (Eq : eps <= eps * q) by nra.
      assert (P0 : 0 < p0 <= PI / 2) by (split; [nra|unfold p0; pose proof (Rabs_pos x0); lra]).
      assert (S0 : 0 < s0) by (apply sin_gt_0; lra).
      assert (Ball : forall x, x0 - p0 / 2 <= x <= x0 + p0 / 2 -> - (PI / 2) < x < PI / 2 /\ s0 <= cos x <= 3 * s0).
      { intros x Hx. assert (Hr : p0 / 2 <= PI / 2 - Rabs x <= 3 * (p0 / 2)).
        { pose proof (Rabs_triang_inv x0 x) as T1. pose proof (Rabs_triang_inv x x0) as T2. rewrite Rabs_minus_sym in T2.
          assert (D : Rabs (x0 - x) <= p0 / 2) by (apply Rabs_le; lra). unfold p0 in *. lra. }
        assert (Cx : cos x = sin (PI / 2 - Rabs x)).
        { rewrite sin_shift. unfold Rabs. destruct (Rcase_abs x); [rewrite cos_neg|]; reflexivity. }
        split.
        - assert (A : Rabs x < PI / 2) by lra. apply Rabs_def2 in A. lra.
        - rewrite Cx. pose proof (Rabs_pos x). split.
          + apply sin_least; lra.
          + apply sin_triple; lra. }
      assert (N : Rabs (x0 - z) <= 8 / 3 * eps * (3 * q)).
      { apply (stopped_near fx F (- (PI / 2)) (PI / 2) y z true ltac:(lra) HF Cross (mx e)
          (fun x => (1 - e ^ 2) / ((1 - (e * sin x) ^ 2) * cos x)) 1 eq_refl x0 r (p0 / 2) ((1 - e ^ 2) / (3 * s0))); auto.
        - pose proof PI_4. lra.
        - nra.
        - apply Rdiv_lt_0_compat; lra.
        - lra.
        - nra.
        - intros x Hx. apply pole_x. apply Ball. exact Hx.
        - intros x Hx. apply mx_derive; [exact He|]. apply Ball. exact Hx.
        - intros x Hx. destruct (Ball x Hx) as [I C]. pose proof (sine_term e He x) as ST. rewrite Rmult_1_l.
          assert (Cp : 0 < cos x) by lra.
          split.
          + unfold Rdiv. apply Rmult_le_compat_l; [lra|]. apply Rinv_le_contravar; [apply Rmult_lt_0_compat; lra|].
            apply Rle_trans with (1 * cos x); [apply Rmult_le_compat_r; lra|lra].
          + replace (3 * q * ((1 - e ^ 2) / (3 * s0))) with (/ s0) by (unfold q; field; lra).
            apply (Rmult_le_reg_r ((1 - (e * sin x) ^ 2) * cos x)); [nra|]. unfold Rdiv. rewrite Rmult_assoc, Rinv_l, Rmult_1_r by nra.
            apply (Rmult_le_reg_l s0); [exact S0|]. rewrite <- Rmult_assoc, Rinv_r, Rmult_1_l by lra. nra. }
      replace (r - z) with ((r - x0) + (x0 - z)) by ring. eapply Rle_lt_trans; [apply Rabs_triang|]. nra.
Qed.
End MercatorFind.

Lemma merc_near low high eq pol prograde samples lines : 0 < pol -> pol <= eq -> 0 < high ->
  map_size samples lines -> (0 < samples)%Z -> (0 < lines)%Z -> low < - (IZR lines / IZR samples * PI) ->
  forall calls o, mercator_plot_map (libm_pole PI low high) prograde (Num (first_eccentricity eq pol) : ar_num)
    (num_centric eq pol) num_find samples lines = (calls, o) ->
  forall k i p, (0 <= i < samples)%Z -> plotted samples calls k i p ->
    exists latg z, - (PI / 2) <= latg <= PI / 2 /\ - (PI / 2) < z < PI / 2 /\
      mx (first_eccentricity eq pol) z = (IZR k + 1 / 2 - IZR lines / 2) * (2 * PI / IZR samples) /\
      p = (Num (centric_latitude eq pol latg) : ar_num,
           Num (if prograde then 2 * PI - (IZR i + 1 / 2) * (2 * PI / IZR samples)
                else (IZR i + 1 / 2) * (2 * PI / IZR samples)) : ar_num) /\
      (Rabs (latg - z) < 10 * eps * (eq / pol) ^ 2 \/ PI / 2 - Rabs latg < 18 * eps * (eq / pol) ^ 2).
Proof.
  intros Hp Hep High Sz S0 L0 Hlow calls o E k i p Hi Hpl.
  set (find := fun y xl xh (_ : ar_num -> ar_num) => num_find y xl xh (mercator_x (libm_pole PI low high) (Num (first_eccentricity eq pol) : ar_num))).
  assert (E2 : mercator_plot_map (libm_num PI low) prograde (Num (first_eccentricity eq pol) : ar_num) (num_centric eq pol) find samples lines = (calls, o)).
  { rewrite <- E. unfold mercator_plot_map, find, mercator_longitude. cbn [l_pi l_pi2 l_2pi l_degree libm_pole libm_num]. reflexivity. }
  destruct (merc_map PI low (first_eccentricity eq pol) prograde (num_centric eq pol) find samples lines Sz S0 L0) as (calls' & o' & E' & V & _).
  rewrite E2 in E'. injection E' as <- <-. destruct (V k i p Hi Hpl) as (v & Fv & ->).
  assert (IZR samples <> 0) by (apply not_0_IZR; lia).
  assert (Ly : low < merc_ord PI samples lines k).
  { assert (SP : 0 < IZR samples) by (apply IZR_lt; lia). assert (K0 : 0 <= IZR k).
    { apply IZR_le. destruct (merc_any ar_num _ _ _ _ _ _ _ Sz _ _ E) as (_ & In_ & _). specialize (In_ _ _ Hpl). nia. }
    assert (0 <= (2 * IZR k + 1) / IZR samples * PI) by (apply Rmult_le_pos; [apply Rle_mult_inv_pos; lra|pose proof PI_RGT_0; lra]).
    unfold merc_ord. assert ((2 * IZR k + 1 - IZR lines) / IZR samples * PI = (2 * IZR k + 1) / IZR samples * PI - IZR lines / IZR samples * PI) by (field; lra). lra. }
  destruct (merc_found low high eq pol Hp Hep High _ v Ly Fv) as (latg & z & -> & Il & Iz & Ez & N).
  exists latg, z. split; [exact Il|]. split; [exact Iz|]. split; [|split; [|exact N]].
  - rewrite Ez. unfold merc_ord. field. assumption.
  - unfold num_centric, num1. f_equal. f_equal. unfold merc_lon. destruct prograde; field; assumption.
Qed.

(** * Polar stereographic *)
Section PolarFind.
Context (low high eq pol : R) (Hp : 0 < pol) (Hep : pol <= eq) (High : 0 < high) (Big : 1 <= eq).
Local Notation e := (first_eccentricity eq pol).
Let He := ecc_range eq pol Hp Hep.
Local Notation L := (libm_pole PI low high).
Local Notation Pw x := (Rpower ((1 + e * sin x) / (1 - e * sin x)) (e / 2)).
Local Notation fx C := (fun r => stereo_rho_impl L (Num e : ar_num) (Num C : ar_num) (Num r : ar_num) : num).

Lemma half_cos x : - (PI / 2) < x < 3 * (PI / 2) -> 0 < cos (PI / 4 - x / 2) /\ 1 + sin x = 2 * cos (PI / 4 - x / 2) ^ 2.
Proof.
  intros H. split; [apply cos_gt_0; lra|].
  pose proof (cos_2a_cos (PI / 4 - x / 2)) as C. replace (2 * (PI / 4 - x / 2)) with (PI / 2 - x) in C by field.
  rewrite cos_shift in C. lra.
Qed.


Lemma power_range : exists W, 1 <= W /\ W * W * (1 - e ^ 2) <= 4 /\ forall x, / W <= Pw x <= W.
Proof.
  set (w := (1 + e) / (1 - e)). exists (Rpower w (e / 2)). pose proof (one_minus e He) as O.
  assert (W1 : 1 <= w). { unfold w. apply (Rmult_le_reg_r (1 - e)); [lra|]. unfold Rdiv. rewrite Rmult_assoc, Rinv_l by lra. lra. }
  assert (Lw : 0 <= ln w) by (rewrite <- ln_1; apply ln_le; lra).
  assert (G1 : 1 <= Rpower w (e / 2)).
  { unfold Rpower. rewrite <- exp_0 at 1. apply exp_le_. nra. }
  split; [exact G1|]. split.
  - rewrite <- Rpower_plus. replace (e / 2 + e / 2) with e by field.
    assert (R1 : Rpower w e <= w). { rewrite <- (Rpower_1 w) at 2 by lra. apply Rle_Rpower; lra. }
    assert (E : w * (1 - e ^ 2) = (1 + e) ^ 2) by (unfold w; field; lra). nra.
  - intros x. pose proof (t_bound e He x) as T. pose proof (SIN_bound x) as S.
    assert (U : / w <= (1 + e * sin x) / (1 - e * sin x) <= w).
    { unfold w. rewrite Rinv_div. split.
      - apply (Rmult_le_reg_r ((1 + e) * (1 - e * sin x))); [nra|].
        replace ((1 - e) / (1 + e) * ((1 + e) * (1 - e * sin x))) with ((1 - e) * (1 - e * sin x)) by (field; lra).
        replace ((1 + e * sin x) / (1 - e * sin x) * ((1 + e) * (1 - e * sin x))) with ((1 + e * sin x) * (1 + e)) by (field; lra). nra.
      - apply (Rmult_le_reg_r ((1 - e) * (1 - e * sin x))); [nra|].
        replace ((1 + e * sin x) / (1 - e * sin x) * ((1 - e) * (1 - e * sin x))) with ((1 + e * sin x) * (1 - e)) by (field; lra).
        replace ((1 + e) / (1 - e) * ((1 - e) * (1 - e * sin x))) with ((1 + e) * (1 - e * sin x)) by (field; lra). nra. }
    assert (Iw : 0 < / w) by (apply Rinv_0_lt_compat; lra).
    assert (Ln : - ln w <= ln ((1 + e * sin x) / (1 - e * sin x)) <= ln w).
    { rewrite <- ln_Rinv by lra. split; apply ln_le; lra. }
    unfold Rpower. rewrite <- exp_Ropp. split; apply exp_le_; nra.
Qed.

Lemma sr_derive x : - (PI / 2) < x < 3 * (PI / 2) ->
  is_derive (sr e) x (- (Pw x * (1 - e ^ 2) / ((1 - (e * sin x) ^ 2) * (1 + sin x)))).
Proof.
  intros H. destruct (half_cos x H) as [C0 C2]. pose proof (t_bound e He x) as T.
  unfold stereographic_radius, Rpower, tan. auto_derive.
  - fold (x / 2). repeat split; try lra; [apply Rgt_not_eq; exact C0|apply Rdiv_lt_0_compat; lra].
  - fold (x / 2). change (PI / 4 + - (x / 2)) with (PI / 4 - x / 2).
    set (s := sin (PI / 4 - x / 2)) in *. set (c := cos (PI / 4 - x / 2)) in *.
    assert (SC : s * s + c * c = 1) by (pose proof (sin2_cos2 (PI / 4 - x / 2)) as E; unfold Rsqr in E; exact E).
    assert (D : 2 * s * c = cos x).
    { unfold s, c. rewrite <- sin_2a. replace (2 * (PI / 4 - x / 2)) with (PI / 2 - x) by field. apply sin_shift. }
    assert (T2 : 0 < 1 - (e * sin x) ^ 2) by nra.
    change ((1 + e * sin x) * / (1 + - (e * sin x))) with ((1 + e * sin x) / (1 - e * sin x)).
    set (P := exp _). rewrite C2. rewrite <- D. fold (x / 2).
    assert (K : 1 - e ^ 2 = 1 - (e * sin x) ^ 2 - 4 * e ^ 2 * (s * c) ^ 2).
    { pose proof (sin2_cos2 x) as E. unfold Rsqr in E. rewrite <- D in E.
      transitivity (1 - e ^ 2 * (sin x * sin x + 2 * s * c * (2 * s * c))); [rewrite E|]; ring. }
    rewrite K. set (t := e * sin x) in *. clearbody t P s c.
    transitivity (P * (- (s * s + c * c) / (2 * c ^ 2) + 2 * e ^ 2 * s ^ 2 / (1 - t ^ 2))).
    + field. repeat split; nra.
    + rewrite SC. field. split; nra.
Qed.

Lemma rho_x C x : - (PI / 2) < x < 3 * (PI / 2) -> fx C x = Num (C * sr e x).
Proof.
  intros H. unfold stereo_rho_impl. cbn [l_tan libm_pole l_pi4 l_sin l_pow libm_num]. nums.
  pose proof (t_bound e He x) as T. rewrite !num_divide by lra. nums.
  destruct (half_cos x H) as [C0 _]. rewrite (Req_bool_false (cos _)) by lra.
  rewrite (Req_bool_false (e / 2)) by lra. rewrite Rlt_bool_true by (apply Rdiv_lt_0_compat; lra). nums.
  unfold sr. f_equal. ring.
Qed.

Lemma rho_south C : exists v, fx C (- (PI / 2)) = Num (C * v) /\ 0 < v.
Proof.
  unfold stereo_rho_impl. cbn [l_tan libm_pole l_pi4 l_sin l_pow libm_num]. nums.
  pose proof (t_bound e He (- (PI / 2))) as T. rewrite !num_divide by lra. nums.
  replace (PI / 4 - - (PI / 2) / 2) with (PI / 2) by field. rewrite cos_PI2, Req_bool_true by reflexivity.
  rewrite (Req_bool_false (e / 2)) by lra. rewrite Rlt_bool_true by (apply Rdiv_lt_0_compat; lra). nums.
  eexists. split; [rewrite Rmult_assoc; reflexivity|]. apply Rmult_lt_0_compat; [exact High|apply exp_pos].
Qed.

Lemma sr_onto y : 0 <= y -> exists z, - (PI / 2) < z <= PI / 2 /\ sr e z = y.
Proof.
  intros [Y| <-].
  - destruct (mx_onto e He (- ln y)) as (z & Hz & E). exists z. split; [lra|].
    rewrite (sr_exp e He z Hz), E, Ropp_involutive. apply exp_ln. exact Y.
  - exists (PI / 2). pose proof PI_RGT_0. split; [lra|]. apply sr_pole.
Qed.

Lemma tan_above t : 0 <= t < PI / 2 -> t <= tan t.
Proof.
  intros [[H| <-] H2]; [|rewrite tan_0; lra].
  assert (Cu : forall u, 0 <= u <= t -> 0 < cos u) by (intros u Hu; apply cos_gt_0; lra).
  assert (D : forall u, 0 <= u <= t -> is_derive tan u (/ cos u ^ 2)).
  { intros u Hu. specialize (Cu u Hu). unfold tan. auto_derive; [lra|].
    pose proof (sin2_cos2 u) as S. unfold Rsqr in S.
    transitivity ((sin u * sin u + cos u * cos u) / cos u ^ 2); [field; lra|]. rewrite S. field. lra. }
  destruct (MVT_gen tan 0 t (fun u => / cos u ^ 2)) as (c & Hc & E).
  - intros u Hu. rewrite Rmin_left, Rmax_right in Hu by lra. apply D. lra.
  - intros u Hu. rewrite Rmin_left, Rmax_right in Hu by lra.
    apply continuity_pt_filterlim. apply (ex_derive_continuous tan). eexists. apply D. exact Hu.
  - rewrite Rmin_left, Rmax_right in Hc by lra. rewrite tan_0 in E. specialize (Cu c Hc).
    assert (1 <= / cos c ^ 2). { rewrite <- Rinv_1 at 1. pose proof (COS_bound c). apply Rinv_le_contravar; nra. }
    nra.
Qed.

Lemma pole_distance z : - (PI / 2) < z <= PI / 2 -> (1 - e ^ 2) / 4 * (PI / 2 - z) <= sr e z.
Proof.
  intros H. unfold stereographic_radius. destruct power_range as (W & W1 & W2 & B). specialize (B z).
  pose proof (one_minus e He) as O.
  pose proof (tan_above (PI / 4 - z / 2) ltac:(lra)) as T.
  assert (W3 : (1 - e ^ 2) / 2 <= / W).
  { apply (Rmult_le_reg_r W); [lra|]. rewrite Rinv_l by lra. nra. }
  set (pw := Rpower _ _) in *. clearbody pw. set (t := tan _) in *. clearbody t. nra.
Qed.

Lemma coeff_big : 1 <= polar_coeff e eq.
Proof.
  unfold polar_coeff, Rpower. assert (L2 : 0 <= ln (1 + e) <= ln 2).
  { split; [rewrite <- ln_1|]; apply ln_le; lra. }
  assert (L1 : ln (1 - e) <= 0) by (rewrite <- ln_1; apply ln_le; lra).
  assert (A : / 2 <= exp (- (1 - e) / 2 * ln (1 + e))).
  { rewrite <- (exp_ln (/ 2)) by lra. apply exp_le_. rewrite ln_Rinv by lra. nra. }
  assert (B : 1 <= exp (- (1 + e) / 2 * ln (1 - e))).
  { rewrite <- exp_0 at 1. apply exp_le_. nra. }
  set (a := exp _) in *. clearbody a. set (b := exp _) in *. clearbody b.
  assert (1 <= 2 * eq * a) by nra. nra.
Qed.

Lemma polar_found C y v : 1 <= C -> 0 <= y -> root_find (fx C) (Num y) (Num (- (PI / 2))) (Num (PI / 2)) = Ok v ->
  exists latg z, v = Num latg /\ - (PI / 2) <= latg <= PI / 2 /\ - (PI / 2) < z <= PI / 2 /\ C * sr e z = y /\
    (Rabs (latg - z) < 98 * eps * (eq / pol) ^ 4 \/ PI / 2 + latg < 194 * eps * (eq / pol) ^ 4).
Proof.
  intros C1 Y0 E. pose proof PI_RGT_0 as Pi. pose proof (bpow_gt_0 radix2 (-52)) as E0.
  destruct (sr_onto (y / C)) as (z & Hz & Ez).
  { apply Rle_mult_inv_pos; lra. }
  assert (Ey : C * sr e z = y) by (rewrite Ez; field; lra).
  replace ((eq / pol) ^ 4) with (((eq / pol) ^ 2) ^ 2) by ring. rewrite <- (oblate_ratio eq pol Hp Hep).
  pose proof (one_minus e He) as O. pose proof (inv_one_minus e He) as Oi. set (q := / (1 - e ^ 2)) in *.
  assert (Q : q * (1 - e ^ 2) = 1) by (unfold q; apply Rinv_l; lra).
  assert (Eq : eps <= eps * q /\ eps * q <= eps * q ^ 2).
  { assert (q <= q ^ 2) by nra. split; [nra|]. apply Rmult_le_compat_l; lra. }
  destruct (rho_south C) as (vs & Es & Vs).
  set (F := fun x => if Req_EM_T x (- (PI / 2)) then C * vs else C * sr e x).
  assert (HF : forall x, - (PI / 2) <= x <= PI / 2 -> fx C x = Num (F x)).
  { intros x Hx. unfold F. destruct (Req_EM_T x (- (PI / 2))) as [->|N2]; [exact Es|]. apply rho_x. lra. }
  assert (Nn : ~ C * vs < y).
  { intros K. assert (0 < C * vs) by nra. unfold root_find in E. cbn [app] in E. rewrite Es, rho_x in E by lra.
    rewrite sr_pole, Rmult_0_r in E. unfold nlt in E. cbn [a_lt ar_num num_lt] in E.
    rewrite (Rlt_bool_true _ y K), (Rlt_bool_true 0 y ltac:(lra)) in E. rewrite orb_true_r in E. discriminate. }
  assert (Cross : forall x, - (PI / 2) <= x <= PI / 2 -> (F x < y <-> z < x)).
  { intros x Hx. unfold F. destruct (Req_EM_T x (- (PI / 2))) as [->|N2]; [split; lra|].
    rewrite <- (sr_order e He z x Hz) by lra. rewrite <- Ey. split; intros K; nra. }
  destruct (search_near (fx C) F (- (PI / 2)) (PI / 2) y z false ltac:(lra) ltac:(lra) HF Cross v E) as (r & -> & Ir & [[Er Ei]|[Nr|(x0 & St)]]);
    exists r, z; (split; [reflexivity|]); (split; [exact Ir|]); (split; [exact Hz|]); (split; [exact Ey|]).
  - destruct Er as [->| ->]; [right; nra|]. left.
    assert (Y2 : y < 2 * eps).
    { revert Ei. unfold F. destruct (Req_EM_T (PI / 2) (- (PI / 2))) as [K|_]; [lra|]. rewrite sr_pole, Rmult_0_r.
      unfold indistinguishable. rewrite Rminus_0_l, Rabs_Ropp, Rplus_0_l, Rabs_R0, (Rabs_right y) by lra.
      assert (Tiny : bpow radix2 (-1022) < bpow radix2 (-52)) by (apply bpow_lt; lia).
      assert (Sm : eps < 1 / 4). { change (bpow radix2 (-52) < 1 / 4). replace (1 / 4) with (bpow radix2 (-2)) by (simpl; lra). apply bpow_lt. lia. }
      intros [K|[K|[_ K]]]; nra. }
    pose proof (pole_distance z Hz) as Pd. rewrite Rabs_right by lra.
    assert (sr e z <= y) by nra. nra.
  - left. nra.
  - assert (St' := St). destruct St' as (d & Ix & _ & _ & _ & Rr).
    destruct (Rlt_le_dec (PI / 2 + x0) (192 * eps * q ^ 2)) as [Near|Far].
    + right. apply Rabs_def2 in Rr. nra.
    + left. set (p0 := PI / 2 + x0) in *. set (s0 := sin (p0 / 4)).
      assert (P0 : 0 < p0 <= PI) by (split; [nra|unfold p0; lra]).
      assert (S0 : 0 < s0) by (apply sin_gt_0; lra).
      destruct power_range as (W & W1 & W2 & Wp).
      assert (Ball : forall x, x0 - p0 / 2 <= x <= x0 + p0 / 2 -> - (PI / 2) < x < 3 * (PI / 2) /\ 2 * s0 ^ 2 <= 1 + sin x <= 18 * s0 ^ 2).
      { intros x Hx. assert (Hr : p0 / 4 <= (PI / 2 + x) / 2 <= 3 * (p0 / 4)) by (unfold p0 in *; lra).
        split; [unfold p0 in *; lra|].
        assert (Sx : 1 + sin x = 2 * sin ((PI / 2 + x) / 2) ^ 2).
        { pose proof (cos_2a_sin ((PI / 2 + x) / 2)) as K. replace (2 * ((PI / 2 + x) / 2)) with (PI / 2 + x) in K by field.
          rewrite cos_plus, cos_PI2, sin_PI2 in K. lra. }
        rewrite Sx. pose proof (sin_least (p0 / 4) ((PI / 2 + x) / 2) ltac:(lra) ltac:(lra) ltac:(lra) ltac:(lra)) as B1.
        pose proof (sin_triple (p0 / 4) ((PI / 2 + x) / 2) ltac:(lra) ltac:(lra) ltac:(lra) ltac:(lra) ltac:(lra)) as B2.
        fold s0 in B1, B2. split; nra. }
      assert (N : Rabs (x0 - z) <= 8 / 3 * eps * (36 * q ^ 2)).
      { apply (stopped_near (fx C) F (- (PI / 2)) (PI / 2) y z false ltac:(lra) HF Cross (fun x => C * sr e x)
          (fun x => C * - (Pw x * (1 - e ^ 2) / ((1 - (e * sin x) ^ 2) * (1 + sin x)))) (-1) eq_refl x0 r (p0 / 2) (C * (1 - e ^ 2) / (W * (18 * s0 ^ 2)))); auto.
        - pose proof PI_4. lra.
        - nra.
        - apply Rdiv_lt_0_compat; nra.
        - nra.
        - lra.
        - intros x Hx. apply rho_x. apply Ball. exact Hx.
        - intros x Hx. apply is_derive_scal. apply sr_derive. apply Ball. exact Hx.
        - intros x Hx. destruct (Ball x Hx) as [I S]. pose proof (sine_term e He x) as ST. specialize (Wp x).
          set (pw := Rpower _ _) in *. set (S1 := 1 + sin x) in *. set (T1 := 1 - (e * sin x) ^ 2) in *.
          replace (-1 * (C * - (pw * (1 - e ^ 2) / (T1 * S1)))) with (C * (1 - e ^ 2) * (pw * / (T1 * S1))) by (unfold Rdiv; ring).
          assert (S2 : 0 < s0 ^ 2) by nra. assert (CO : 0 < C * (1 - e ^ 2)) by nra.
          assert (Iw : 0 < / W) by (apply Rinv_0_lt_compat; lra).
          assert (TS : 0 < T1 * S1) by (apply Rmult_lt_0_compat; lra).
          split.
          + unfold Rdiv. apply Rmult_le_compat_l; [lra|]. rewrite Rinv_mult.
            apply Rmult_le_compat; [lra|left; apply Rinv_0_lt_compat; lra|lra|]. apply Rinv_le_contravar; [exact TS|].
            apply Rle_trans with (1 * S1); [apply Rmult_le_compat_r; lra|lra].
          + apply Rle_trans with (C * (1 - e ^ 2) * (W * / ((1 - e ^ 2) * (2 * s0 ^ 2)))).
            * apply Rmult_le_compat_l; [lra|]. apply Rmult_le_compat; [lra|left; apply Rinv_0_lt_compat; exact TS|lra|].
              apply Rinv_le_contravar; [apply Rmult_lt_0_compat; lra|]. apply Rmult_le_compat; lra.
            * replace (C * (1 - e ^ 2) * (W * / ((1 - e ^ 2) * (2 * s0 ^ 2)))) with (C / (2 * s0 ^ 2 * W) * (W * W)) by (field; lra).
              replace (36 * q ^ 2 * (C * (1 - e ^ 2) / (W * (18 * s0 ^ 2)))) with (C / (2 * s0 ^ 2 * W) * (4 * q)) by (unfold q; field; lra).
              apply Rmult_le_compat_l; [left; apply Rdiv_lt_0_compat; nra|].
              apply (Rmult_le_reg_r (1 - e ^ 2)); [lra|]. lra. }
      replace (r - z) with ((r - x0) + (x0 - z)) by ring. eapply Rle_lt_trans; [apply Rabs_triang|]. nra.
Qed.
End PolarFind.

Section PolarFindMap.
Context (low high eq pol : R) (Hp : 0 < pol) (Hep : pol <= eq) (High : 0 < high) (Big : 1 <= eq) (prograde north : bool).
Context (samples lines : Z) (Sz : map_size samples lines) (S0 : (0 < samples)%Z) (L0 : (0 < lines)%Z).
Context (max_lat : R) (Hmax : - (PI / 2) < max_lat < PI / 2).
Local Notation e := (first_eccentricity eq pol).
Local Notation L := (libm_pole PI low high).
Local Notation edge := (polar_edge eq pol north max_lat).
Let He := ecc_range eq pol Hp Hep.

Lemma polar_near calls o :
  polar_plot_map L prograde (Num eq : ar_num) (Num e : ar_num) (num_graphic eq pol) (num_centric eq pol) num_find
    (@Polar ar_num (Num max_lat) north) samples lines = (calls, o) ->
  forall k i p, (0 <= i < samples)%Z -> plotted samples calls k i p ->
  exists latg z lon, - (PI / 2) <= latg <= PI / 2 /\ - (PI / 2) < z <= PI / 2 /\
    sr e z * IZR (Z.min samples lines) = 2 * sr e edge * from_center samples lines k i /\
    p = (Num (centric_latitude eq pol (if north then latg else - latg)) : ar_num, Num lon : ar_num) /\
    (Rabs (latg - z) < 98 * eps * (eq / pol) ^ 4 \/ PI / 2 + latg < 194 * eps * (eq / pol) ^ 4) /\
    from_center samples lines k i * cos lon = along_line lines k /\
    from_center samples lines k i * sin lon = (if turned prograde north then across samples i else - across samples i).
Proof.
  intros E k i p Hi Hpl. unfold polar_plot_map in E. destruct (loops_spec _ _ _ _ _ Sz E) as (_ & _ & V & _).
  destruct (V k i p Hi Hpl) as (f & Rk & Fi). apply Ok_inj in Rk. subst f.
  assert (MP : 0 < IZR (Z.min samples lines)) by (apply IZR_lt; lia).
  assert (ML : IZR (Z.min samples lines) <> 0) by lra.
  assert (PE : - (PI / 2) < edge < PI / 2).
  { assert (B : - (PI / 2) < graphic_latitude eq pol max_lat < PI / 2).
    { unfold graphic_latitude, atan_ktan. rewrite Req_bool_false by (apply Rgt_not_eq, cos_gt_0; lra). match goal with |- _ < atan ?a < _ => pose proof (atan_bound a); lra end. }
    unfold polar_edge. destruct north; lra. }
  assert (RC : rho_coefficient L (Num eq : ar_num) (Num e : ar_num) = Num (polar_coeff e eq)).
  { rewrite <- (rho_coefficient_num e He low eq). unfold rho_coefficient. cbn [l_pow libm_pole]. reflexivity. }
  assert (RM : stereo_rho L (Num eq : ar_num) (Num e : ar_num) (@Polar ar_num (Num max_lat) north) (num_graphic eq pol (Num max_lat)) =
     Num (polar_coeff e eq * sr e edge)).
  { unfold stereo_rho. cbn [ps_north]. rewrite RC. unfold num_graphic. cbn [num1].
    rewrite <- (rho_x low high eq pol Hp Hep) by lra. unfold polar_edge. destruct north; [reflexivity|].
    unfold neg. nums. f_equal. f_equal. ring. }
  cbn [ps_max_lat ps_north] in Fi. rewrite RM in Fi. rewrite num_half in Fi. rewrite RC in Fi.
  cbn [l_pi2 libm_pole libm_num] in Fi. revert Fi. nums.
  rewrite !(num_divide _ 2) by lra. rewrite num_divide by exact ML. nums.
  fold (across samples i) (along_line lines k).
  replace (IZR i + / 2 - IZR samples / 2) with (across samples i) by (unfold across; lra).
  replace (IZR k + / 2 - IZR lines / 2) with (along_line lines k) by (unfold along_line; lra).
  set (X := along_line lines k). set (Y := across samples i).
  unfold neg. nums. replace (0 - PI / 2) with (- (PI / 2)) by ring.
  destruct (num_find _ _ _ _) as [r| |] eqn:F; cbn [bind]; [|discriminate|discriminate]. intros Fi. apply Ok_inj in Fi.
  pose proof (coeff_big eq pol Hp Hep Big) as CB.
  assert (D : hypot Y X = from_center samples lines k i).
  { unfold hypot, from_center. f_equal. fold X Y. ring. }
  destruct (polar_found low high eq pol Hp Hep High (polar_coeff e eq)
    (2 * (polar_coeff e eq * sr e edge) / IZR (Z.min samples lines) * hypot Y X) r CB) as (latg & z & -> & Il & Iz & Ez & N).
  { pose proof (sr_pos e He edge PE) as SP. apply Rmult_le_pos; [|apply sqrt_pos].
    apply Rle_mult_inv_pos; [|exact MP]. nra. }
  { unfold num_find in F. exact F. }
  set (lon := atan2 (if turned prograde north then Y else - Y) X).
  exists latg, z, lon. split; [exact Il|]. split; [exact Iz|]. split; [|split; [|split; [exact N|]]].
  - rewrite D in Ez. apply (Rmult_eq_reg_l (polar_coeff e eq)); [|lra]. rewrite <- Rmult_assoc, Ez. field. exact ML.
  - injection Fi as <-. f_equal.
    + unfold num_centric. destruct north; cbn [num1]; [reflexivity|]. nums. cbn [num1]. f_equal. f_equal. ring.
    + unfold lon, turned. destruct north, prograde; cbn [andb orb negb]; nums; f_equal; f_equal; ring.
  - set (Y' := if turned prograde north then Y else - Y) in *.
    assert (D' : from_center samples lines k i = hypot X Y').
    { rewrite <- D. unfold hypot. f_equal. unfold Y'. destruct turned; ring. }
    destruct (Req_dec X 0) as [X0|NX]; [destruct (Req_dec Y' 0) as [Y0|NY]|].
    + rewrite D', X0, Y0. unfold hypot. rewrite Rmult_0_l, Rplus_0_l, sqrt_0. split; ring.
    + rewrite D'. unfold lon. destruct (atan2_polar X Y' (or_intror NY)) as (C & S & _). split; assumption.
    + rewrite D'. unfold lon. destruct (atan2_polar X Y' (or_introl NX)) as (C & S & _). split; assumption.
Qed.
End PolarFindMap.

(** * The equator and the pole are found at once *)
Section Found.
Local Notation e1 := (first_eccentricity 1 1).

Lemma e_sphere : e1 = 0.
Proof. pose proof (ecc_sq 1 1 ltac:(lra) ltac:(lra)) as E. replace (1 - (1 / 1) ^ 2) with 0 in E by field. nra. Qed.

Lemma apart_from_zero x : 1 <= Rabs x -> is_almost_equal (A := ar_num) eps_num tiny_num (Num x) (Num 0) = false.
Proof.
  intros H. destruct (is_almost_equal _ _ _ _) eqn:E; [|reflexivity]. exfalso. revert E. rewrite is_almost_equal_spec.
  unfold indistinguishable. rewrite Rminus_0_r, Rplus_0_r.
  assert (Tiny : bpow radix2 (-1022) < bpow radix2 (-2)) by (apply bpow_lt; lia).
  assert (Sm : eps < bpow radix2 (-2)) by (apply bpow_lt; lia).
  replace (bpow radix2 (-2)) with (1 / 4) in * by (simpl; lra).
  intros [K|[K|[K _]]]; nra.
Qed.

Lemma equator_found :
  root_find (fun r => mercator_x (libm_pole PI (-7) (exp 1)) (Num e1 : ar_num) (Num r : ar_num) : num) (Num 0) (Num (- (PI / 2))) (Num (PI / 2)) = Ok (Num 0).
Proof.
  pose proof PI_RGT_0 as Pi. pose proof (exp_pos 1) as X1. pose proof e_sphere as S. pose proof (ecc_range 1 1 ltac:(lra) ltac:(lra)) as He.
  pose proof (bpow_gt_0 radix2 (-52)) as E0.
  set (fx := fun r => _). 
  assert (N : fx (PI / 2) = Num 1).
  { unfold fx. rewrite S. unfold mercator_x. cbn [l_tan libm_pole l_pi4 l_sin l_log l_pow libm_num]. nums.
    rewrite !num_divide by lra. nums. replace (PI / 4 + PI / 2 / 2) with (PI / 2) by field. rewrite cos_PI2, Req_bool_true by reflexivity.
    rewrite (Req_bool_false (0 / 2)) by lra. replace ((1 - 0 * sin (PI / 2)) / (1 + 0 * sin (PI / 2))) with 1 by field.
    rewrite Rlt_bool_true by lra. nums. unfold Rpower. rewrite ln_1, Rmult_0_r, exp_0, Rmult_1_r.
    rewrite Rlt_bool_true by exact X1. rewrite ln_exp. reflexivity. }
  assert (So : fx (- (PI / 2)) = Num (-7)) by (apply pole_south; lra).
  assert (M : forall x, - (PI / 2) < x < PI / 2 -> fx x = Num (mx e1 x)) by (intros x Hx; apply pole_x; lra).
  assert (Z : mx e1 0 = 0).
  { pose proof (mx_odd e1 He 0 ltac:(lra)) as O. rewrite Ropp_0 in O. lra. }
  unfold root_find. cbn [app]. rewrite N, So. unfold nlt. cbn [a_lt ar_num num_lt].
  rewrite (Rlt_bool_false 0 (-7)), (Rlt_bool_true (-7) 0), (Rlt_bool_false 1 0) by lra. cbn [andb orb].
  rewrite !apart_from_zero by (unfold Rabs; destruct (Rcase_abs _); lra).
  unfold rf_start. cbn [app]. rewrite So. unfold nlt. cbn [a_lt ar_num num_lt]. rewrite (Rlt_bool_false 0 (-7)) by lra.
  replace (ndiv (nadd (Num (- (PI / 2))) (Num (PI / 2))) (Num 2)) with (Num 0).
  2: { unfold ndiv, nadd. cbn [a_add a_div ar_num num2 num_div]. rewrite Req_bool_false by lra. f_equal. field. }
  cbn [app]. rewrite (M 0) by lra. rewrite Z. cbn [rf_loop].
  assert (D : exists d, first_derivative fx (Num 0) = Num d /\ d <> 0).
  { set (h := 2 * eps).
    assert (H0 : 0 < h /\ h < 1 / 100).
    { unfold h. split; [lra|]. assert (eps < bpow radix2 (-10)) by (apply bpow_lt; lia). assert (bpow radix2 (-10) = 1 / 1024) by (simpl; lra). lra. }
    exists (five_point (mx e1) 0 h). split.
    - unfold first_derivative, nlt. cbn [a_lt ar_num num_lt]. rewrite Rlt_bool_true by lra.
      unfold eps_num, nsub, nadd, nmul, ndiv. cbn [a_sub a_add a_mul a_div ar_num num2 app num_div].
      fold h. pose proof PI2_3_2. rewrite !M by lra. cbn [num2 num_div]. rewrite Req_bool_false by lra. reflexivity.
    - pose proof PI2_3_2 as P3.
      assert (Db : forall x, - (2 * h) <= x <= 2 * h -> 1 <= 1 * ((1 - e1 ^ 2) / ((1 - (e1 * sin x) ^ 2) * cos x)) <= 2).
      { intros x Hx. rewrite S. replace ((1 - 0 ^ 2) / ((1 - (0 * sin x) ^ 2) * cos x)) with (/ cos x).
        2: { assert (0 < cos x) by (apply cos_gt_0; lra). field. lra. }
        assert (1 / 2 <= cos x).
        { rewrite <- cos_PI3. unfold Rdiv in *. destruct (Rle_lt_dec 0 x).
          - apply cos_decr_1; lra.
          - rewrite <- (cos_neg x). apply cos_decr_1; lra. }
        pose proof (COS_bound x). rewrite Rmult_1_l. split.
        - rewrite <- Rinv_1 at 1. apply Rinv_le_contravar; lra.
        - replace 2 with (/ (1 / 2)) by field. apply Rinv_le_contravar; lra. }
      pose proof (mean (mx e1) (fun x => (1 - e1 ^ 2) / ((1 - (e1 * sin x) ^ 2) * cos x)) 1 (- h) h 1 2 ltac:(lra)
        ltac:(intros x Hx; apply mx_derive; [exact He|lra]) ltac:(intros x Hx; apply Db; lra)) as [B1 _].
      pose proof (mean (mx e1) (fun x => (1 - e1 ^ 2) / ((1 - (e1 * sin x) ^ 2) * cos x)) 1 (- (2 * h)) (2 * h) 1 2 ltac:(lra)
        ltac:(intros x Hx; apply mx_derive; [exact He|lra]) ltac:(intros x Hx; apply Db; lra)) as [_ B2].
      unfold five_point. rewrite !Rminus_0_l, !Rplus_0_l. intros K.
      assert (K2 : mx e1 (- (2 * h)) - 8 * mx e1 (- h) + 8 * mx e1 h - mx e1 (2 * h) = 0).
      { apply (Rmult_eq_reg_r (/ (12 * h))); [|apply Rinv_neq_0_compat; lra]. rewrite Rmult_0_l. exact K. }
      lra. }
  destruct D as (d & Ed & Nd). unfold rf_step. rewrite Ed.
  unfold nsub, nadd, nmul, ndiv, nlt, nabs. cbn [a_sub a_add a_mul a_div a_lt a_abs ar_num num2 num_div num_lt num_abs].
  rewrite (Rlt_bool_false 0); [|nra]. cbn [orb]. rewrite (Rlt_bool_false (Rabs _) (Rabs (2 * (0 - 0)))).
  2: { replace (2 * (0 - 0)) with 0 by ring. rewrite Rabs_R0. apply Rabs_pos. }
  rewrite Req_bool_false by exact Nd. replace ((0 - 0) / d) with 0 by (field; exact Nd).
  assert (AZ : almost_zero (A := ar_num) eps_num (Num 0) 2 = true).
  { unfold almost_zero, eps_num. cbn [a_lt a_abs a_mul a_of_Z ar_num num_abs num2 num_lt]. rewrite Rabs_R0, Rlt_bool_true by lra. reflexivity. }
  rewrite AZ. f_equal. f_equal. ring.
Qed.

Lemma equator_drawn : exists calls o,
  mercator_plot_map (libm_pole PI (-7) (exp 1)) true (Num e1 : ar_num) (num_centric 1 1) num_find 2 1 = (calls, Ok o) /\
  plotted 2 calls 0 0 (Num (centric_latitude 1 1 0) : ar_num, Num (2 * PI - 1 / 2 * (2 * PI / 2)) : ar_num).
Proof.
  set (find := fun y xl xh (_ : ar_num -> ar_num) => num_find y xl xh (mercator_x (libm_pole PI (-7) (exp 1)) (Num e1 : ar_num))).
  assert (E2 : forall r, mercator_plot_map (libm_num PI (-7)) true (Num e1 : ar_num) (num_centric 1 1) find 2 1 = r ->
    mercator_plot_map (libm_pole PI (-7) (exp 1)) true (Num e1 : ar_num) (num_centric 1 1) num_find 2 1 = r).
  { intros r <-. unfold mercator_plot_map, find, mercator_longitude. cbn [l_pi l_pi2 l_2pi l_degree libm_pole libm_num]. reflexivity. }
  destruct (merc_map PI (-7) e1 true (num_centric 1 1) find 2 1) as (calls & o & E & _ & P & T);
    [repeat split; reflexivity || discriminate|lia|lia|].
  assert (F : merc_find PI (-7) e1 find 2 1 0 = Ok (Num 0)).
  { unfold merc_find, find, num_find. replace (merc_ord PI 2 1 0) with 0 by (unfold merc_ord; simpl; field). apply equator_found. }
  destruct T as (n & ->). { intros k Hk. replace k with 0%Z by lia. exists (Num 0). exact F. }
  exists calls, n. split; [exact (E2 _ E)|].
  destruct (P (ex_intro _ n eq_refl) 0%Z 0%Z ltac:(lia) ltac:(lia)) as (latg & F' & Pl).
  rewrite F in F'. apply Ok_inj in F'. subst latg. unfold merc_lon in Pl.
  replace (2 * PI - 1 / 2 * (2 * PI / 2)) with (2 * PI - (2 * 0 + 1) / 2 * PI) by field. exact Pl.
Qed.

Lemma pole_found C : 1 <= C ->
  root_find (fun r => stereo_rho_impl (libm_pole PI (-7) 1) (Num e1 : ar_num) (Num C : ar_num) (Num r : ar_num) : num)
    (Num 0) (Num (- (PI / 2))) (Num (PI / 2)) = Ok (Num (PI / 2)).
Proof.
  intros H. pose proof PI_RGT_0 as Pi.
  set (fx := fun r => _).
  assert (So : fx (- (PI / 2)) = Num C).
  { unfold fx. rewrite e_sphere. unfold stereo_rho_impl. cbn [l_tan libm_pole l_pi4 l_sin l_pow libm_num]. nums.
    rewrite !num_divide by lra. nums. replace (PI / 4 - - (PI / 2) / 2) with (PI / 2) by field. rewrite cos_PI2, Req_bool_true by reflexivity.
    rewrite (Req_bool_false (0 / 2)) by lra. replace ((1 + 0 * sin (- (PI / 2))) / (1 - 0 * sin (- (PI / 2)))) with 1 by field.
    rewrite Rlt_bool_true by lra. nums. unfold Rpower. rewrite ln_1, Rmult_0_r, exp_0. f_equal. ring. }
  assert (N : fx (PI / 2) = Num 0).
  { unfold fx. rewrite (rho_x (-7) 1 1 1) by lra. rewrite sr_pole. f_equal. ring. }
  unfold root_find. cbn [app]. rewrite N, So. unfold nlt. cbn [a_lt ar_num num_lt].
  rewrite (Rlt_bool_true 0 C), (Rlt_bool_false 0 0), (Rlt_bool_false C 0) by lra. cbn [andb orb].
  rewrite apart_from_zero by (rewrite Rabs_right; lra). rewrite is_almost_equal_refl. reflexivity.
Qed.
End Found.

Lemma polar_built_near low high eq pol : 0 < pol -> pol <= eq -> 1 <= eq -> 0 < high -> forall prograde north samples lines,
  map_size samples lines -> (0 < samples)%Z -> (0 < lines)%Z ->
  forall (x : num) p, polar_new (libm_pole PI low high) (x : ar_num) north = Ok p ->
  forall calls o,
  polar_plot_map (libm_pole PI low high) prograde (Num eq : ar_num) (Num (first_eccentricity eq pol) : ar_num)
    (num_graphic eq pol) (num_centric eq pol) num_find p samples lines = (calls, o) ->
  exists d, (x = Num d \/ x = NaN /\ d = 0) /\
  forall k i q, (0 <= i < samples)%Z -> plotted samples calls k i q -> exists latg z lon,
    - (PI / 2) <= latg <= PI / 2 /\ - (PI / 2) < z <= PI / 2 /\
    sr (first_eccentricity eq pol) z * IZR (Z.min samples lines) =
      2 * sr (first_eccentricity eq pol)
            (if north then graphic_latitude eq pol (d * (PI / 180)) else - graphic_latitude eq pol (d * (PI / 180))) *
      from_center samples lines k i /\
    q = (Num (centric_latitude eq pol (if north then latg else - latg)) : ar_num, Num lon : ar_num) /\
    (Rabs (latg - z) < 98 * eps * (eq / pol) ^ 4 \/ PI / 2 + latg < 194 * eps * (eq / pol) ^ 4) /\
    from_center samples lines k i * cos lon = along_line lines k /\
    from_center samples lines k i * sin lon = (if Bool.eqb north prograde then across samples i else - across samples i).
Proof.
  intros Hp Hep Big High prograde north samples lines Sz S0 L0 x p New calls o E.
  assert (New' : polar_new (libm_num PI low) (x : ar_num) north = Ok p).
  { rewrite <- New. unfold polar_new. cbn [l_degree libm_pole]. reflexivity. }
  destruct (polar_new_spec low x north p New') as (d & Hd & Hx & ->). apply polar_range in Hd.
  exists d. split; [exact Hx|]. intros k i q Hi Hpl.
  destruct (polar_near low high eq pol Hp Hep High Big prograde north samples lines Sz S0 L0 _ Hd calls o E k i q Hi Hpl)
    as (latg & z & lon & R).
  exists latg, z, lon. unfold polar_edge in R. replace (Bool.eqb north prograde) with (turned prograde north); [exact R|].
  destruct north, prograde; reflexivity.
Qed.

Lemma one_cell P (row : Z -> outcome (Z -> outcome (option P))) f p : row 0%Z = Ok f -> f 0%Z = Ok (Some p) ->
  plot_loops 1 1 row = ([(p, 0%Z)], Ok 1%Z).
Proof. intros R F. unfold plot_loops. change (Z.to_nat 1) with 1%nat. cbn [plot_rows]. rewrite R. change (Z.to_nat 1) with 1%nat. cbn [plot_row]. rewrite F. reflexivity. Qed.

Lemma pole_drawn : exists p calls o, polar_new (libm_pole PI (-7) 1) (NaN : ar_num) true = Ok p /\
  polar_plot_map (libm_pole PI (-7) 1) true (Num 1 : ar_num) (Num (first_eccentricity 1 1) : ar_num)
    (num_graphic 1 1) (num_centric 1 1) num_find p 1 1 = (calls, Ok o) /\
  exists lon, plotted 1 calls 0 0 (Num (centric_latitude 1 1 (PI / 2)) : ar_num, lon).
Proof.
  pose proof (ecc_range 1 1 ltac:(lra) ltac:(lra)) as He. pose proof PI_RGT_0 as Pi.
  exists (@Polar ar_num (Num 0) true).
  set (e1 := first_eccentricity 1 1) in *.
  assert (RC : rho_coefficient (libm_pole PI (-7) 1) (Num 1 : ar_num) (Num e1 : ar_num) = Num (polar_coeff e1 1)).
  { rewrite <- (rho_coefficient_num e1 He (-7) 1). unfold rho_coefficient. cbn [l_pow libm_pole]. reflexivity. }
  assert (New : polar_new (libm_pole PI (-7) 1) (NaN : ar_num) true = Ok (@Polar ar_num (Num 0) true)).
  { unfold polar_new. cbn [a_isnan ar_num num_isnan negb andb]. reflexivity. }
  assert (ML : IZR (Z.min 1 1) = 1) by reflexivity.
  do 2 eexists. split; [exact New|]. split.
  - unfold polar_plot_map. eapply one_cell; [reflexivity|]. cbv beta zeta. rewrite RC.
    match goal with |- bind (num_find ?r ?l ?u ?f) ?c = _ =>
      assert (R0 : r = (Num 0 : ar_num)); [|
      assert (Fd : num_find (Num 0) l u f = Ok (Num (PI / 2)))] end.
    + rewrite num_half. cbn [l_hypot libm_pole libm_num]. nums. rewrite ML. rewrite !(num_divide _ 2) by lra. nums.
      unfold stereo_rho. cbn [ps_north ps_max_lat]. rewrite RC. unfold num_graphic. cbn [num1].
      assert (G0 : - (PI / 2) < graphic_latitude 1 1 0 < PI / 2).
      { unfold graphic_latitude, atan_ktan. rewrite Req_bool_false by (rewrite cos_0; lra). match goal with |- _ < atan ?a < _ => pose proof (atan_bound a); lra end. }
      rewrite (rho_x (-7) 1 1 1) by lra.
      nums. rewrite num_divide by lra. nums. f_equal. unfold hypot.
      replace (_ + _) with 0 by field. rewrite sqrt_0. ring.
    + unfold num_find. unfold neg. cbn [l_pi2 libm_pole libm_num]. nums. replace (0 - PI / 2) with (- (PI / 2)) by ring.
      apply pole_found. apply coeff_big; lra.
    + rewrite R0, Fd. cbn [bind ps_north]. unfold num_centric. cbn [num1]. reflexivity.
  - eexists. left. reflexivity.
Qed.
