From Coq Require Import List ZArith Reals Lia Lra Bool Psatz.
From Flocq Require Import Core BinarySingleNaN.
From Verif Require Import Base Flt FltFacts Num LinAlg_Model Maths_Model Maths_Spec.
Import ListNotations.
Open Scope R_scope.

(** ** Quadratic roots *)

Lemma sgn_cases b : (0 <= b /\ sgn b = 1%Z) \/ (b < 0 /\ sgn b = (-1)%Z).
Proof.
  unfold sgn. destruct (Rle_lt_dec 0 b).
  - left. rewrite Rle_bool_true, Rlt_bool_false by lra. auto.
  - right. rewrite Rle_bool_false, Rlt_bool_true by lra. auto.
Qed.

Lemma quadratic_none a b c : quadratic_roots a b c = None <-> b * b - 4 * a * c < 0.
Proof.
  unfold quadratic_roots. destruct (Rlt_bool_spec (b * b - 4 * a * c) 0); split; intros; try discriminate; auto; lra.
Qed.

Lemma quadratic_some a b c : a <> 0 -> b <> 0 \/ c <> 0 -> 0 <= b * b - 4 * a * c ->
  exists r1 r2, quadratic_roots a b c = Some (Num r1, Num r2) /\
    forall x, a * x * x + b * x + c = 0 <-> x = r1 \/ x = r2.
Proof.
  intros Ha Hbc Hd. unfold quadratic_roots. rewrite Rlt_bool_false by lra.
  set (d := b * b - 4 * a * c) in *. set (s := sqrt d).
  assert (Hs : s * s = d) by (apply sqrt_sqrt; lra). assert (0 <= s) by apply sqrt_pos.
  set (q := - (b + IZR (sgn b) * s) / 2).
  assert (Hq : q * q + b * q + a * c = 0).
  { unfold q. unfold d in Hs. destruct (sgn_cases b) as [[_ ->]|[_ ->]]; nra. }
  assert (Nq : q <> 0).
  { intros Q. assert (b + IZR (sgn b) * s = 0) by (unfold q in Q; lra).
    destruct (sgn_cases b) as [[B E]|[B E]]; rewrite E in *; [|nra].
    assert (b = 0 /\ s = 0) as [B0 S0] by nra. destruct Hbc as [K|K]; [lra|].
    rewrite S0 in Hs. unfold d in Hs. rewrite B0 in Hs. apply K.
    assert (a * c = 0) by lra. destruct (Rmult_integral _ _ H1); lra. }
  exists (q / a), (c / q). unfold num_div, num2. rewrite !Req_bool_false by assumption.
  split; [reflexivity|]. intros x.
  assert (F : a * x * x + b * x + c = a * (x - q / a) * (x - c / q)).
  { assert (Hb : b = - (q + a * c / q)).
    { apply (Rmult_eq_reg_r q); [|exact Nq]. field_simplify; [|exact Nq]. nra. }
    rewrite Hb. field. auto. }
  rewrite F. split; intros H1.
  - destruct (Rmult_integral _ _ H1) as [H2|H2]; [left|right; lra].
    destruct (Rmult_integral _ _ H2); [contradiction|lra].
  - destruct H1 as [->| ->]; field; auto.
Qed.

Lemma quadratic_double_zero a : a <> 0 -> quadratic_roots a 0 0 = Some (Num 0, NaN).
Proof.
  intros Ha. unfold quadratic_roots. replace (0 * 0 - 4 * a * 0) with 0 by ring.
  rewrite Rlt_bool_false by lra. rewrite sqrt_0. rewrite Rmult_0_r, Rplus_0_r.
  replace (- 0 / 2) with 0 by field. unfold num_div, num2.
  rewrite Req_bool_false by assumption. rewrite Req_bool_true by reflexivity.
  do 3 f_equal. field. assumption.
Qed.

(** ** Comparisons over the reals *)

Lemma eps_pos : 0 < bpow radix2 (-52). Proof. apply bpow_gt_0. Qed.
Lemma tiny_pos : 0 < bpow radix2 (-1022). Proof. apply bpow_gt_0. Qed.
Lemma eps_small : bpow radix2 (-52) < 1 / 1000.
Proof.
  apply Rle_lt_trans with (bpow radix2 (-10)); [apply bpow_le; lia|]. cbn. lra.
Qed.
Lemma tiny_small : bpow radix2 (-1022) < 1 / 1000.
Proof. apply Rle_lt_trans with (bpow radix2 (-10)); [apply bpow_le; lia|]. cbn. lra. Qed.

Lemma almost_equal_sym_R (eps tiny x y : num) ulp :
  almost_equal (A := ar_num) eps tiny x y ulp = almost_equal (A := ar_num) eps tiny y x ulp.
Proof.
  unfold almost_equal. destruct x as [|x], y as [|y]; try reflexivity.
  cbn -[num_lt num2]. cbn [num2]. cbn [num_abs].
  rewrite (Rabs_minus_sym x y), (Rplus_comm x y). reflexivity.
Qed.

Lemma almost_equal_refl_R x ulp : almost_equal (A := ar_num) eps_num tiny_num (Num x) (Num x) ulp = true.
Proof.
  unfold almost_equal. apply orb_true_iff. right. cbn. replace (x - x) with 0 by ring.
  rewrite Rabs_R0. apply Rlt_bool_true, tiny_pos.
Qed.

Lemma almost_zero_even_R x n : almost_zero (A := ar_num) eps_num (Num (- x)) n = almost_zero (A := ar_num) eps_num (Num x) n.
Proof. unfold almost_zero. cbn. now rewrite Rabs_Ropp. Qed.

Lemma almost_zero_spec_R x n : almost_zero (A := ar_num) eps_num (Num x) n = true <-> Rabs x < bpow radix2 (-52) * IZR n.
Proof.
  unfold almost_zero. cbn [a_lt a_abs a_mul a_of_Z ar_num num_abs num2 eps_num num_lt].
  destruct (Rlt_bool_spec (Rabs x) (bpow radix2 (-52) * IZR n)); split; auto; try discriminate. lra.
Qed.

Lemma almost_zero_mono_R x n m : (n <= m)%Z ->
  almost_zero (A := ar_num) eps_num x n = true -> almost_zero (A := ar_num) eps_num x m = true.
Proof.
  destruct x as [|x]; [discriminate|]. rewrite !almost_zero_spec_R. intros H L.
  apply IZR_le in H. pose proof eps_pos. nra.
Qed.

Lemma signum_spec x : signum (A := ar_num) (Num x) = if Rlt_bool x 0 then (-1)%Z else if Rlt_bool 0 x then 1%Z else 0%Z.
Proof.
  unfold signum. cbn.
  destruct (Rlt_bool_spec x 0), (Rlt_bool_spec 0 x); try reflexivity; lra.
Qed.

Lemma sgn_spec x : sgn x = if Rlt_bool x 0 then (-1)%Z else 1%Z.
Proof.
  unfold sgn. destruct (Rlt_bool_spec x 0), (Rle_bool_spec 0 x); try reflexivity; lra.
Qed.

(** ** Comparisons on doubles *)

#[local] Existing Instance prec53.
#[local] Existing Instance emax53.

Lemma Babs_eq (a b : double) : is_finite a = true -> is_finite b = true ->
  Rabs (B2R a) = Rabs (B2R b) -> Babs a = Babs b.
Proof.
  intros Fa Fb E. apply B2R_Bsign_inj.
  - now rewrite is_finite_Babs.
  - now rewrite is_finite_Babs.
  - now rewrite !B2R_Babs.
  - rewrite !Bsign_Babs; [reflexivity|now apply finite_not_nan..].
Qed.

Lemma Babs_minus_sym (x y : double) : Babs (Bminus mode_NE x y) = Babs (Bminus mode_NE y x).
Proof.
  destruct (is_finite x) eqn:Fx; [destruct (is_finite y) eqn:Fy|].
  - pose proof (Bminus_correct 53 1024 _ _ mode_NE x y Fx Fy) as Hxy.
    pose proof (Bminus_correct 53 1024 _ _ mode_NE y x Fy Fx) as Hyx.
    assert (O : round radix2 (SpecFloat.fexp 53 1024) (round_mode mode_NE) (B2R y - B2R x) =
                - round radix2 (SpecFloat.fexp 53 1024) (round_mode mode_NE) (B2R x - B2R y)).
    { replace (B2R y - B2R x) with (- (B2R x - B2R y)) by ring. apply round_NE_opp. }
    rewrite O, Rabs_Ropp in Hyx.
    destruct (Rlt_bool (Rabs (round radix2 (SpecFloat.fexp 53 1024) (round_mode mode_NE) (B2R x - B2R y))) (bpow radix2 1024)).
    + destruct Hxy as (E1 & F1 & _), Hyx as (E2 & F2 & _). apply Babs_eq; [assumption..|].
      rewrite E1, E2, Rabs_Ropp. reflexivity.
    + destruct Hxy as [E1 _], Hyx as [E2 _].
      revert E1 E2. generalize (Bminus mode_NE x y) (Bminus mode_NE y x). intros u v E1 E2.
      destruct u, v; cbn in E1, E2; try discriminate; try reflexivity.
  - destruct x as [[]|[]| |[]], y as [[]|[]| |[]]; try discriminate; reflexivity.
  - destruct x as [[]|[]| |[]], y as [[]|[]| |[]]; try discriminate; reflexivity.
Qed.

Lemma Bplus_comm_NE (x y : double) : Bplus mode_NE x y = Bplus mode_NE y x.
Proof.
  destruct (is_finite x) eqn:Fx; [destruct (is_finite y) eqn:Fy|].
  - pose proof (Bplus_correct 53 1024 _ _ mode_NE x y Fx Fy) as Hxy.
    pose proof (Bplus_correct 53 1024 _ _ mode_NE y x Fy Fx) as Hyx.
    rewrite (Rplus_comm (B2R y)) in Hyx.
    destruct (Rlt_bool (Rabs (round radix2 (SpecFloat.fexp 53 1024) (round_mode mode_NE) (B2R x + B2R y))) (bpow radix2 1024)).
    + destruct Hxy as (E1 & F1 & S1), Hyx as (E2 & F2 & S2). apply B2R_Bsign_inj; try assumption; [congruence|].
      rewrite S1, S2. destruct (Rcompare (B2R x + B2R y) 0); auto. now rewrite andb_comm.
    + destruct Hxy as [E1 G1], Hyx as [E2 G2].
      apply B2SF_inj. congruence.
  - destruct x as [[]|[]| |[]], y as [[]|[]| |[]]; try discriminate; reflexivity.
  - destruct x as [[]|[]| |[]], y as [[]|[]| |[]]; try discriminate; reflexivity.
Qed.

Lemma almost_equal_sym_F (x y : double) ulp :
  almost_equal (A := ar_double) eps_double tiny_double x y ulp = almost_equal (A := ar_double) eps_double tiny_double y x ulp.
Proof.
  unfold almost_equal. cbn [a_lt a_abs a_sub a_add ar_double].
  now rewrite (Babs_minus_sym x y), (Bplus_comm_NE x y).
Qed.

Lemma almost_equal_refl_F (x : double) ulp : is_finite x = true ->
  almost_equal (A := ar_double) eps_double tiny_double x x ulp = true.
Proof.
  intros F. unfold almost_equal. apply orb_true_iff. right. cbn [a_lt a_abs a_sub a_add ar_double].
  assert (E : Babs (Bminus mode_NE x x) = (B754_zero false : double)).
  { pose proof (Bminus_correct 53 1024 _ _ mode_NE x x F F) as H.
    replace (B2R x - B2R x) with 0 in H by ring. rewrite round_0 in H by apply valid_rnd_N.
    rewrite Rabs_R0, Rlt_bool_true in H by apply bpow_gt_0. destruct H as (E & Ff & _).
    change (B754_zero false : double) with (Babs (B754_zero false : double)).
    apply Babs_eq; [assumption|reflexivity|]. rewrite E. reflexivity. }
  rewrite E. vm_compute. reflexivity.
Qed.

Lemma almost_zero_even_F (x : double) n :
  almost_zero (A := ar_double) eps_double (Bopp x) n = almost_zero (A := ar_double) eps_double x n.
Proof. unfold almost_zero. cbn. f_equal. destruct x; reflexivity. Qed.

Lemma eps_double_val : is_finite eps_double = true /\ B2R eps_double = bpow radix2 (-52).
Proof.
  unfold eps_double, dlit.
  assert (E : F2R (Float radix2 1 (-52)) = bpow radix2 (-52)) by (unfold F2R; cbn [Fnum Fexp]; ring).
  rewrite <- E. apply normalize_exact; rewrite E.
  - apply generic_format_bpow. unfold SpecFloat.fexp, SpecFloat.emin. lia.
  - rewrite Rabs_pos_eq by apply bpow_ge_0. apply bpow_lt. lia.
Qed.

(** [epsilon * n] for an [int] n. *)
Lemma eps_times n : (Z.abs n <= 2 ^ 31)%Z ->
  is_finite (Bmult mode_NE eps_double (double_of_Z n)) = true /\
  B2R (Bmult mode_NE eps_double (double_of_Z n)) =
    round radix2 (SpecFloat.fexp 53 1024) ZnearestE (bpow radix2 (-52) * IZR n).
Proof.
  intros H. destruct eps_double_val as [Fe Ee].
  destruct (double_of_Z_exact n) as [Fn En]; [lia|].
  pose proof (Bmult_correct 53 1024 _ _ mode_NE eps_double (double_of_Z n)) as C.
  rewrite Ee, En in C. cbn [round_mode] in C. rewrite Rlt_bool_true in C.
  - destruct C as (E & F & _). rewrite F, Fe, Fn. auto.
  - apply Rle_lt_trans with (bpow radix2 0); [|apply bpow_lt; lia].
    apply abs_round_le_generic.
    + apply (fexp_correct 53 1024); reflexivity.
    + apply valid_rnd_N.
    + apply generic_format_bpow. unfold SpecFloat.fexp, SpecFloat.emin. lia.
    + rewrite Rabs_mult, (Rabs_pos_eq (bpow _ _)) by apply bpow_ge_0. rewrite <- abs_IZR.
      apply IZR_le in H. change (2 ^ 31)%Z with 2147483648%Z in H.
      apply Rle_trans with (bpow radix2 (-52) * bpow radix2 31).
      * apply Rmult_le_compat_l; [apply bpow_ge_0|]. replace (bpow radix2 31) with (IZR 2147483648) by (cbn; lra). exact H.
      * rewrite <- bpow_plus. apply bpow_le. lia.
Qed.

Lemma almost_zero_mono_F (x : double) n m : (Z.abs n <= 2 ^ 31)%Z -> (Z.abs m <= 2 ^ 31)%Z -> (n <= m)%Z ->
  almost_zero (A := ar_double) eps_double x n = true -> almost_zero (A := ar_double) eps_double x m = true.
Proof.
  intros Hn Hm H. unfold almost_zero. cbn [a_lt a_abs a_mul a_of_Z ar_double].
  destruct (eps_times n Hn) as [F1 E1]. destruct (eps_times m Hm) as [F2 E2].
  destruct (is_nan (Babs x)) eqn:Nx; [rewrite flt_nan_l by exact Nx; discriminate|].
  rewrite !flt_spec by (try exact Nx; now apply finite_not_nan).
  rewrite !(fval_finite _ F1), !(fval_finite _ F2), E1, E2.
  intros L. apply Rlt_bool_true. destruct (Rlt_bool_spec (fval (Babs x)) (round radix2 (SpecFloat.fexp 53 1024) ZnearestE (bpow radix2 (-52) * IZR n))) as [L'|]; [|discriminate].
  eapply Rlt_le_trans; [exact L'|]. apply round_le; [apply (fexp_correct 53 1024); reflexivity|apply valid_rnd_N|].
  apply Rmult_le_compat_l; [apply bpow_ge_0|]. now apply IZR_le.
Qed.

(** ** Validation of angles *)

Lemma validate_generic degree limit (x : num) (o : outcome num) :
  o = (if num_isnan x || num_lt x (Num (IZR (- limit))) || num_lt (Num (IZR limit)) x
       then Throw invalid_argument else Ok (num2 (fun a b => Num (a * b)) x (Num degree))) ->
  accepts degree (IZR limit) x o.
Proof.
  intros ->. destruct x as [|r]; cbn -[IZR]; [reflexivity|]. rewrite opp_IZR.
  destruct (Rle_bool_spec (- IZR limit) r), (Rle_bool_spec r (IZR limit)); cbn [andb].
  - rewrite !Rlt_bool_false by lra. reflexivity.
  - rewrite (Rlt_bool_true (IZR limit) r) by lra. now rewrite orb_true_r.
  - rewrite (Rlt_bool_true r) by lra. reflexivity.
  - rewrite (Rlt_bool_true r) by lra. reflexivity.
Qed.

Lemma validate_all degree x :
  accepts degree 90 x (validate_latitude (A := ar_num) (Num degree) x) /\
  accepts degree 360 x (validate_longitude (A := ar_num) (Num degree) x) /\
  accepts degree 360 x (validate_position_angle (A := ar_num) (Num degree) x).
Proof.
  split; [|split]; (apply (validate_generic degree 90) || apply (validate_generic degree 360)); reflexivity.
Qed.

Lemma validate_double_aux (limit : Z) (degree x : double) : (0 <= limit <= 360)%Z ->
  (if is_nan x || flt x (double_of_Z (- limit)) || flt (double_of_Z limit) x
   then Throw invalid_argument else Ok (Bmult mode_NE x degree)) =
  (if negb (is_nan x) && Rle_bool (- IZR limit) (fval x) && Rle_bool (fval x) (IZR limit)
   then Ok (Bmult mode_NE x degree) else Throw invalid_argument).
Proof.
  intros H. destruct (is_nan x) eqn:N; cbn [orb negb andb]; [reflexivity|].
  destruct (double_of_Z_exact (- limit)) as [F1 E1]; [lia|].
  destruct (double_of_Z_exact limit) as [F2 E2]; [lia|].
  rewrite !flt_spec by (try exact N; now apply finite_not_nan).
  rewrite (fval_finite _ F1), (fval_finite _ F2), E1, E2, opp_IZR.
  destruct (Rle_bool_spec (- IZR limit) (fval x)), (Rle_bool_spec (fval x) (IZR limit)); cbn [andb].
  - rewrite !Rlt_bool_false by lra. reflexivity.
  - rewrite (Rlt_bool_true (IZR limit)) by lra. now rewrite orb_true_r.
  - rewrite (Rlt_bool_true (fval x)) by lra. reflexivity.
  - rewrite (Rlt_bool_true (fval x)) by lra. reflexivity.
Qed.

Lemma validate_doubles (degree x : double) :
  let ok limit := negb (is_nan x) && Rle_bool (- limit) (fval x) && Rle_bool (fval x) limit in
  let v := Bmult mode_NE x degree in
  validate_latitude (A := ar_double) degree x = (if ok 90 then Ok v else Throw invalid_argument) /\
  validate_longitude (A := ar_double) degree x = (if ok 360 then Ok v else Throw invalid_argument) /\
  validate_position_angle (A := ar_double) degree x = (if ok 360 then Ok v else Throw invalid_argument).
Proof.
  cbv zeta. split; [|split]; (apply (validate_double_aux 90) || apply (validate_double_aux 360)); lia.
Qed.

(** ** Bracketed root finding *)

Lemma first_derivative_nan f : first_derivative f NaN = NaN.
Proof. reflexivity. Qed.

Lemma nan_step f y s : rf_x0 s = NaN -> exists s', rf_step f y s = inl s' /\ rf_x0 s' = NaN.
Proof.
  destruct s as [xl xh x0 y0 dx dxold]. cbn [rf_x0]. intros ->. unfold rf_step.
  rewrite first_derivative_nan.
  replace (nlt (Num 0) _) with false.
  2:{ destruct xh, xl, y0, y; reflexivity. }
  replace (nlt (nabs (nmul dxold NaN)) _) with false by (destruct dxold, y0, y; reflexivity).
  cbn [orb]. replace (ndiv (nsub y0 y) NaN) with NaN by (destruct y0, y; reflexivity).
  cbn. destruct (nlt NaN y); eexists; split; reflexivity.
Qed.

Lemma nan_loop f y n : forall s, rf_x0 s = NaN -> rf_loop f n y s = Throw runtime_error.
Proof.
  induction n as [|n IH]; intros s H; [reflexivity|]. cbn [rf_loop].
  destruct (nan_step f y s H) as (s' & -> & H'). now apply IH.
Qed.

Definition good (lo hi : R) (s : rf_state) : Prop :=
  exists a b c, rf_xl s = Num a /\ rf_xh s = Num b /\ rf_x0 s = Num c /\
    lo <= a <= hi /\ lo <= b <= hi /\ lo <= c <= hi.

Lemma newton_between x0 xh xl y0 y df :
  df <> 0 -> ~ 0 < ((x0 - xh) * df - y0 + y) * ((x0 - xl) * df - y0 + y) ->
  Rmin xl xh <= x0 - (y0 - y) / df <= Rmax xl xh.
Proof.
  intros Hd H. set (n := x0 - (y0 - y) / df).
  assert (E1 : (x0 - xh) * df - y0 + y = (n - xh) * df) by (unfold n; field; exact Hd).
  assert (E2 : (x0 - xl) * df - y0 + y = (n - xl) * df) by (unfold n; field; exact Hd).
  rewrite E1, E2 in H.
  assert (P : (n - xh) * (n - xl) <= 0).
  { destruct (Rle_lt_dec ((n - xh) * (n - xl)) 0); [assumption|]. exfalso. apply H.
    replace ((n - xh) * df * ((n - xl) * df)) with ((n - xh) * (n - xl) * (df * df)) by ring.
    apply Rmult_lt_0_compat; [assumption|]. nra. }
  unfold Rmin, Rmax. destruct (Rle_dec xl xh); split; nra.
Qed.

Lemma mid_between xl xh : Rmin xl xh <= xl + (xh - xl) / 2 <= Rmax xl xh.
Proof. unfold Rmin, Rmax. destruct (Rle_dec xl xh); lra. Qed.

Lemma good_minmax lo hi a b r : lo <= a <= hi -> lo <= b <= hi -> Rmin a b <= r <= Rmax a b -> lo <= r <= hi.
Proof. unfold Rmin, Rmax. destruct (Rle_dec a b); lra. Qed.

(** The value the step moves to: a point of the bracket, or NaN. *)
Lemma step_point f y lo hi s : good lo hi s ->
  exists dx' x0', 
    (rf_step f (Num y) s =
     if almost_zero (A := ar_num) eps_num dx' 2 then inr x0'
     else inl (if nlt (app f x0') (Num y) then RF x0' (rf_xh s) x0' (app f x0') dx' (rf_dx s)
               else RF (rf_xl s) x0' x0' (app f x0') dx' (rf_dx s))) /\
    ((dx' = NaN /\ x0' = NaN) \/ exists r, x0' = Num r /\ lo <= r <= hi).
Proof.
  intros (a & b & c & Ea & Eb & Ec & Ia & Ib & Ic).
  destruct s as [xl xh x0 y0 dx dxold]; cbn [rf_xl rf_xh rf_x0 rf_dx] in *; subst.
  unfold rf_step. set (df := first_derivative f (Num c)).
  match goal with |- context [if ?cond then _ else _] => destruct cond eqn:Br end.
  - exists (Num ((b - a) / 2)), (Num (a + (b - a) / 2)).
    assert (D : ndiv (nsub (Num b) (Num a)) (Num 2) = Num ((b - a) / 2)).
    { cbn. rewrite Req_bool_false by lra. reflexivity. }
    rewrite D. split; [reflexivity|]. right. eexists. split; [reflexivity|].
    apply (good_minmax lo hi a b); auto. apply mid_between.
  - apply orb_false_iff in Br as [Br1 Br2].
    exists (ndiv (nsub y0 (Num y)) df), (nsub (Num c) (ndiv (nsub y0 (Num y)) df)).
    split; [reflexivity|].
    destruct y0 as [|y0]; [left; split; reflexivity|].
    destruct df as [|df]; [left; split; reflexivity|].
    cbn in Br1, Br2. destruct (Req_dec df 0) as [->|Nd].
    + left. cbn. rewrite Req_bool_true by reflexivity. split; reflexivity.
    + right. cbn. rewrite Req_bool_false by exact Nd. eexists. split; [reflexivity|].
      apply (good_minmax lo hi a b); auto. apply newton_between; [exact Nd|].
      destruct (Rlt_bool_spec 0 (((c - b) * df - y0 + y) * ((c - a) * df - y0 + y))); [discriminate|lra].
Qed.

Lemma nan_not_zero : almost_zero (A := ar_num) eps_num NaN 2 = false.
Proof. reflexivity. Qed.

Lemma loop_in_bracket f y lo hi n : forall s, good lo hi s -> forall v,
  rf_loop f n (Num y) s = Ok v -> exists r, v = Num r /\ lo <= r <= hi.
Proof.
  induction n as [|n IH]; intros s G v; [discriminate|]. cbn [rf_loop].
  destruct (step_point f y lo hi s G) as (dx' & x0' & E & [[-> ->]|(r & -> & Hr)]); rewrite E.
  - rewrite nan_not_zero. destruct (nlt (app f NaN) (Num y)); rewrite nan_loop by reflexivity; discriminate.
  - destruct (almost_zero (A := ar_num) eps_num dx' 2).
    + intros H; injection H as <-. eauto.
    + destruct G as (a & b & c & Ea & Eb & Ec & Ia & Ib & Ic).
      destruct (nlt (app f (Num r)) (Num y)); apply IH.
      * exists r, b, r. cbn. auto 10.
      * exists a, r, r. cbn. auto 10.
Qed.

Lemma start_good f y xl xh : good (Rmin xl xh) (Rmax xl xh) (rf_start f (Num y) (Num xl) (Num xh)).
Proof.
  unfold rf_start.
  assert (H : Rmin xl xh <= xl <= Rmax xl xh /\ Rmin xl xh <= xh <= Rmax xl xh /\
              Rmin xl xh <= (xl + xh) / 2 <= Rmax xl xh /\ Rmin xl xh <= (xh + xl) / 2 <= Rmax xl xh).
  { unfold Rmin, Rmax. destruct (Rle_dec xl xh); repeat split; lra. }
  destruct (nlt (Num y) (app f (Num xl))).
  - exists xh, xl, ((xh + xl) / 2). cbn. rewrite Req_bool_false by lra. tauto.
  - exists xl, xh, ((xl + xh) / 2). cbn. rewrite Req_bool_false by lra. tauto.
Qed.

Lemma root_find_in_bracket f y xl xh v :
  root_find f (Num y) (Num xl) (Num xh) = Ok v -> exists r, v = Num r /\ between xl xh r.
Proof.
  unfold root_find, between. destruct (_ || _); [discriminate|].
  assert (H : Rmin xl xh <= xl <= Rmax xl xh /\ Rmin xl xh <= xh <= Rmax xl xh)
    by (unfold Rmin, Rmax; destruct (Rle_dec xl xh); lra).
  destruct (is_almost_equal (A := ar_num) eps_num tiny_num (app f (Num xl)) (Num y)); [intros E; injection E as <-; exists xl; tauto|].
  destruct (is_almost_equal (A := ar_num) eps_num tiny_num (app f (Num xh)) (Num y)); [intros E; injection E as <-; exists xh; tauto|].
  intros E. exact (loop_in_bracket f y _ _ 100 _ (start_good f y xl xh) v E).
Qed.

Lemma root_find_unsuitable (f : R -> R) y xl xh :
  (y < f xl /\ y < f xh) \/ (f xl < y /\ f xh < y) ->
  root_find (fun x => Num (f x)) (Num y) (Num xl) (Num xh) = Throw invalid_argument.
Proof.
  intros H. unfold root_find. cbn [app].
  replace (_ || _) with true; [reflexivity|]. symmetry. apply orb_true_iff.
  destruct H as [[H1 H2]|[H1 H2]]; [left|right]; apply andb_true_iff; cbn; rewrite !Rlt_bool_true by assumption; auto.
Qed.

Lemma is_almost_equal_refl x : is_almost_equal (A := ar_num) eps_num tiny_num (Num x) (Num x) = true.
Proof. unfold is_almost_equal. now rewrite almost_equal_refl_R. Qed.

(** Reachable states keep a crossing in the bracket while the current point is
    a number. *)
Lemma reached_nan f y s s' : reached f y s s' -> rf_x0 s = NaN -> rf_x0 s' = NaN.
Proof.
  induction 1 as [|s s' s'' Hr IH Hs]; auto. intros E. specialize (IH E).
  destruct (nan_step f y s' IH) as (t & E1 & E2). congruence.
Qed.

Lemma reached_encloses (f : R -> R) y s s' lo hi :
  reached (fun x => Num (f x)) (Num y) s s' -> good lo hi s -> encloses f y s ->
  rf_x0 s' = NaN \/ (good lo hi s' /\ encloses f y s').
Proof.
  intros Hr G0 E0. induction Hr as [|s s' s'' Hr IH Hs]; [auto|].
  destruct (IH G0 E0) as [N|[G E]].
  - left. destruct (nan_step (fun x => Num (f x)) (Num y) s' N) as (t & E1 & E2). congruence.
  - destruct (step_point (fun x => Num (f x)) y lo hi s' G) as (dx' & x0' & Es & [[-> ->]|(r & -> & Hb)]);
      rewrite Es in Hs.
    + rewrite nan_not_zero in Hs. left. destruct (nlt _ _) in Hs; injection Hs as <-; reflexivity.
    + destruct (almost_zero (A := ar_num) eps_num dx' 2); [discriminate|]. right.
      destruct G as (a & b & c & Ea & Eb & Ec & Ia & Ib & Ic).
      destruct E as (a' & b' & Ea' & Eb' & H). assert (a' = a) by congruence. assert (b' = b) by congruence. subst a' b'.
      cbn [app] in Hs. cbn [nlt a_lt ar_num num_lt] in Hs.
      destruct (Rlt_bool_spec (f r) y) as [L|L]; injection Hs as <-.
      * split; [exists r, b, r; cbn; auto 10|exists r, b; cbn; repeat split; auto; lra].
      * split; [exists a, r, r; cbn; auto 10|exists a, r; cbn; repeat split; auto; lra].
Qed.

Lemma start_encloses (f : R -> R) y xl xh :
  ~ ((y < f xl /\ y < f xh) \/ (f xl < y /\ f xh < y)) -> f xl <> y -> f xh <> y ->
  encloses f y (rf_start (fun x => Num (f x)) (Num y) (Num xl) (Num xh)).
Proof.
  intros N Nl Nh. unfold rf_start. cbn [app nlt a_lt ar_num num_lt].
  destruct (Rlt_bool_spec y (f xl)) as [L|L].
  - exists xh, xl. repeat split; try reflexivity; lra.
  - exists xl, xh. repeat split; try reflexivity; lra.
Qed.

Lemma root_find_trace (f : R -> R) y xl xh s :
  root_find (fun x => Num (f x)) (Num y) (Num xl) (Num xh) <> Throw invalid_argument ->
  f xl <> y -> f xh <> y ->
  reached (fun x => Num (f x)) (Num y) (rf_start (fun x => Num (f x)) (Num y) (Num xl) (Num xh)) s ->
  rf_x0 s = NaN \/ encloses f y s.
Proof.
  intros N Nl Nh Hr.
  destruct (reached_encloses f y _ s _ _ Hr (start_good _ y xl xh)) as [H|[_ H]]; auto.
  apply start_encloses; auto. intros K. apply N. now apply root_find_unsuitable.
Qed.

Lemma root_find_result f y xl xh :
  (exists v, root_find f (Num y) (Num xl) (Num xh) = Ok v) \/
  root_find f (Num y) (Num xl) (Num xh) = Throw invalid_argument \/
  root_find f (Num y) (Num xl) (Num xh) = Throw runtime_error.
Proof.
  unfold root_find. destruct (_ || _); [auto|]. destruct (is_almost_equal _ _ _ _); [eauto|].
  destruct (is_almost_equal _ _ _ _); [eauto|].
  generalize (rf_start f (Num y) (Num xl) (Num xh)). generalize 100%nat.
  induction n as [|n IH]; intros s; [auto|]. cbn [rf_loop].
  destruct (rf_step f (Num y) s); [apply IH|eauto].
Qed.

(** x^3 = 0 on [-1, 1]: the first midpoint is the root, but the slope there is
    zero and the search is lost. *)
Lemma rf_loop_S f n y s :
  rf_loop f (S n) y s = match rf_step f y s with inl s' => rf_loop f n y s' | inr x => Ok x end.
Proof. reflexivity. Qed.

Definition cube (x : R) : R := x * x * x.

Lemma cube_root_lost : root_find (fun x => Num (cube x)) (Num 0) (Num (-1)) (Num 1) = Throw runtime_error.
Proof.
  pose proof eps_pos. pose proof eps_small. pose proof tiny_pos. pose proof tiny_small.
  unfold root_find.
  replace (_ || _) with false.
  2:{ unfold cube; cbn. rewrite (Rlt_bool_false 0 (-1 * -1 * -1)) by lra. rewrite (Rlt_bool_false (1 * 1 * 1) 0) by lra.
      now rewrite andb_false_r. }
  assert (NA : forall x, Rabs x = 1 -> is_almost_equal (A := ar_num) eps_num tiny_num (Num x) (Num 0) = false).
  { intros x Hx. unfold is_almost_equal, almost_equal, almost_zero.
    cbn [a_lt a_abs a_mul a_sub a_add a_of_Z ar_num num_abs num2 eps_num tiny_num num_lt].
    rewrite Rminus_0_r, Rplus_0_r, Hx.
    rewrite !(Rlt_bool_false 1) by lra. reflexivity. }
  cbn [app]. rewrite NA by (unfold cube; rewrite Rabs_left; lra).
  rewrite NA by (unfold cube; rewrite Rabs_right; lra).
  rewrite (rf_loop_S _ 99).
  assert (S0 : rf_start (fun x => Num (cube x)) (Num 0) (Num (-1)) (Num 1) =
               RF (Num (-1)) (Num 1) (Num 0) (Num 0) (Num 2) (Num 2)).
  { unfold rf_start. cbn [app nlt a_lt ar_num num_lt]. rewrite Rlt_bool_false by (unfold cube; lra).
    unfold nsub, nadd, nabs, ndiv. cbn [a_sub a_add a_abs a_div ar_num num2 num_abs num_div].
    rewrite Req_bool_false by lra. replace (1 - -1) with 2 by ring. rewrite (Rabs_right 2) by lra.
    replace ((-1 + 1) / 2) with 0 by field. unfold cube, app. do 2 f_equal. ring. }
  rewrite S0.
  assert (D0 : first_derivative (fun x => Num (cube x)) (Num 0) = Num 0).
  { unfold first_derivative. unfold nlt. cbn [a_lt ar_num num_lt]. rewrite Rlt_bool_true by lra.
    unfold nsub, nadd, nmul, ndiv, eps_num. cbn [a_sub a_add a_mul a_div ar_num num2 app num_div].
    rewrite Req_bool_false by lra. f_equal. unfold cube. field. lra. }
  assert (St : exists s, rf_step (fun x => Num (cube x)) (Num 0)
                 (RF (Num (-1)) (Num 1) (Num 0) (Num 0) (Num 2) (Num 2)) = inl s /\ rf_x0 s = NaN).
  { unfold rf_step. rewrite D0. unfold nsub, nadd, nmul, ndiv, nlt, nabs.
    cbn [a_sub a_add a_mul a_div a_lt a_abs ar_num num2 num_div num_lt num_abs].
    rewrite (Rlt_bool_false 0) by lra. rewrite !Rminus_0_r, !Rmult_0_r. rewrite (Rlt_bool_false (Rabs 0)) by lra.
    cbn [orb]. rewrite Req_bool_true by reflexivity. cbn. eexists. split; reflexivity. }
  destruct St as (s & -> & N). now apply nan_loop.
Qed.

(** ** What a returned value guarantees *)

Lemma first_derivative_slope f x : first_derivative (fun x => Num (f x)) (Num x) = Num (slope f x).
Proof.
  pose proof eps_pos as E. unfold first_derivative, slope, five_point, nlt. cbn [a_lt ar_num num_lt].
  destruct (Rlt_bool_spec x 1); unfold nsub, nadd, nmul, ndiv, eps_num;
    cbn [a_sub a_add a_mul a_div ar_num num2 app num_div].
  - rewrite Rmult_1_r. rewrite Req_bool_false by lra. reflexivity.
  - rewrite Req_bool_false by nra. reflexivity.
Qed.

Lemma is_almost_equal_spec x y :
  is_almost_equal (A := ar_num) eps_num tiny_num (Num x) (Num y) = true <-> indistinguishable x y.
Proof.
  unfold is_almost_equal, almost_equal, almost_zero, indistinguishable, eps_num, tiny_num.
  cbn [a_lt a_abs a_mul a_sub a_add a_of_Z ar_num num_abs num2 num_lt].
  rewrite !orb_true_iff, andb_true_iff.
  assert (B : forall a b, Rlt_bool a b = true <-> a < b).
  { intros a b. destruct (Rlt_bool_spec a b); split; auto; [discriminate|lra]. }
  rewrite !B.
  replace (bpow radix2 (-52) * Rabs (x + y) * 2) with (2 * bpow radix2 (-52) * Rabs (x + y)) by ring.
  rewrite (Rmult_comm (bpow radix2 (-52)) 2). tauto.
Qed.

Lemma newton_result (f : R -> R) y n : forall x0 v,
  newton_raphson (fun x => Num (f x)) n (Num y) x0 = v -> v = NaN \/
  exists x1 r, v = Num r /\ slope f x1 <> 0 /\ r = x1 - (f x1 - y) / slope f x1 /\ indistinguishable r x1.
Proof.
  induction n as [|n IH]; intros x0 v; cbn [newton_raphson]; [auto|].
  destruct x0 as [|x0]; cbn [app].
  - change (is_almost_equal (A := ar_num) eps_num tiny_num _ _) with false. apply IH.
  - rewrite first_derivative_slope. unfold nsub at 1, ndiv, nsub.
    cbn [a_sub a_div ar_num num2 num_div].
    destruct (Req_bool_spec (slope f x0) 0) as [E|E].
    + change (is_almost_equal (A := ar_num) eps_num tiny_num _ _) with false. apply IH.
    + destruct (is_almost_equal (A := ar_num) eps_num tiny_num (Num (x0 - (f x0 - y) / slope f x0)) (Num x0)) eqn:A;
        [|apply IH].
      intros <-. right. exists x0, (x0 - (f x0 - y) / slope f x0).
      apply is_almost_equal_spec in A. auto.
Qed.

Lemma search_result (f : R -> R) y stop n : forall x0 v,
  search_loop (fun x => Num (f x)) n (Num y) x0 stop = v -> v = Throw runtime_error \/
  exists x1 r, v = Ok (Num r) /\ slope f x1 <> 0 /\ r = x1 - (f x1 - y) / slope f x1 /\ indistinguishable r x1.
Proof.
  induction n as [|n IH]; intros x0 v; cbn [search_loop]; [auto|].
  destruct (newton_result f y 20 x0 _ eq_refl) as [E|(x1 & r & E & H)]; rewrite E; cbn [num_isnan negb].
  - destruct (_ && _); [auto|]. apply IH.
  - intros <-. right. exists x1, r. tauto.
Qed.

Lemma root_find_guess_result (f : R -> R) y x0 :
  root_find_guess (fun x => Num (f x)) (Num y) (Num x0) = Throw runtime_error \/
  exists x1 r, root_find_guess (fun x => Num (f x)) (Num y) (Num x0) = Ok (Num r) /\
    slope f x1 <> 0 /\ r = x1 - (f x1 - y) / slope f x1 /\ indistinguishable r x1.
Proof.
  unfold root_find_guess.
  destruct (newton_result f y 20 (Num x0) _ eq_refl) as [E|(x1 & r & E & H)]; rewrite E; cbn [num_isnan negb].
  - apply (search_result f y _ 10 _ _ eq_refl).
  - right. exists x1, r. tauto.
Qed.

(** Bracketed search: the step that was accepted. *)
Lemma loop_result (f : R -> R) y lo hi n : forall s, good lo hi s -> encloses f y s -> rf_y0 s = app (fun x => Num (f x)) (rf_x0 s) ->
  forall v, rf_loop (fun x => Num (f x)) n (Num y) s = Ok v ->
  (exists a b, f a < y <= f b /\ v = Num ((a + b) / 2) /\ Rabs (b - a) < 4 * bpow radix2 (-52)) \/
  (exists x1, slope f x1 <> 0 /\ v = Num (x1 - (f x1 - y) / slope f x1) /\
     Rabs ((f x1 - y) / slope f x1) < 2 * bpow radix2 (-52)).
Proof.
  induction n as [|n IH]; intros s G E Y v; [discriminate|]. cbn [rf_loop].
  destruct (rf_step (fun x => Num (f x)) (Num y) s) as [s'|w] eqn:St.
  - assert (R1 : reached (fun x => Num (f x)) (Num y) s s') by (eapply reached_step; [apply reached_start|exact St]).
    destruct (reached_encloses f y s s' lo hi R1 G E) as [N|[G' E']].
    + rewrite nan_loop by exact N. discriminate.
    + apply IH; auto.
      destruct (step_point (fun x => Num (f x)) y lo hi s G) as (dx' & x0' & Es & _). rewrite Es in St.
      destruct (almost_zero _ _ _); [discriminate|]. destruct (nlt _ _) in St; injection St as <-; reflexivity.
  - intros H; injection H as <-.
    destruct G as (a & b & c & Ea & Eb & Ec & Ia & Ib & Ic).
    destruct E as (a' & b' & Ea' & Eb' & H). assert (a' = a) by congruence. assert (b' = b) by congruence. subst a' b'.
    destruct s as [xl xh x0 y0 dx dxold]; cbn [rf_xl rf_xh rf_x0 rf_y0 rf_dx] in *; subst. cbn [app] in *.
    unfold rf_step in St. rewrite first_derivative_slope in St.
    assert (AZ : forall d m, almost_zero (A := ar_num) eps_num (Num d) 2 = true -> m = 2 * bpow radix2 (-52) -> Rabs d < m).
    { intros d m A ->. unfold almost_zero, eps_num in A. cbn [a_lt a_abs a_mul a_of_Z ar_num num_abs num2 num_lt] in A.
      destruct (Rlt_bool_spec (Rabs d) (bpow radix2 (-52) * 2)); [lra|discriminate]. }
    match type of St with context [if ?cond || ?cond2 then _ else _] => destruct (cond || cond2) end.
    + left. exists a, b. split; [exact H|].
      assert (D : ndiv (nsub (Num b) (Num a)) (Num 2) = Num ((b - a) / 2)).
      { cbn. rewrite Req_bool_false by lra. reflexivity. }
      rewrite D in St. destruct (almost_zero (A := ar_num) eps_num (Num ((b - a) / 2)) 2) eqn:A; [|destruct (nlt _ _) in St; discriminate].
      injection St as <-. split; [cbn; f_equal; field|]. apply AZ with (m := 2 * bpow radix2 (-52)) in A; auto.
      unfold Rdiv in A. rewrite Rabs_mult, (Rabs_right (/ 2)) in A by lra. lra.
    + right. exists c. unfold ndiv, nsub in St. cbn [a_sub a_div ar_num num2 num_div] in St.
      destruct (Req_bool_spec (slope f c) 0) as [Z|Z].
      * rewrite nan_not_zero in St. destruct (nlt _ _) in St; discriminate.
      * split; [exact Z|].
        destruct (almost_zero (A := ar_num) eps_num (Num ((f c - y) / slope f c)) 2) eqn:A; [|destruct (nlt _ _) in St; discriminate].
        injection St as <-. split; [reflexivity|]. now apply AZ.
Qed.

Lemma crossing_near (f : R -> R) y a b : continuity f -> f a < y <= f b ->
  exists z, f z = y /\ Rabs ((a + b) / 2 - z) <= Rabs (b - a) / 2.
Proof.
  intros C [H1 H2].
  assert (Cg : continuity (fun x => f x - y)).
  { apply continuity_minus; [exact C|]. apply continuity_const. intros ? ?. reflexivity. }
  destruct (Rle_dec a b) as [L|L].
  - destruct (IVT_cor (fun x => f x - y) a b Cg L) as (z & Hz & E); [nra|]. exists z. split; [lra|].
    rewrite (Rabs_pos_eq (b - a)) by lra. apply Rabs_le. lra.
  - destruct (IVT_cor (fun x => f x - y) b a Cg) as (z & Hz & E); [lra|nra|]. exists z. split; [lra|].
    rewrite (Rabs_left (b - a)) by lra. apply Rabs_le. lra.
Qed.

Lemma root_find_guarantee (f : R -> R) y xl xh v : continuity f ->
  root_find (fun x => Num (f x)) (Num y) (Num xl) (Num xh) = Ok v ->
  exists r, v = Num r /\
   (((r = xl \/ r = xh) /\ indistinguishable (f r) y) \/
    (exists z, f z = y /\ Rabs (r - z) < 2 * bpow radix2 (-52)) \/
    (exists x1, slope f x1 <> 0 /\ r = x1 - (f x1 - y) / slope f x1 /\
       Rabs (r - x1) < 2 * bpow radix2 (-52))).
Proof.
  intros C H. assert (N : root_find (fun x => Num (f x)) (Num y) (Num xl) (Num xh) <> Throw invalid_argument) by congruence.
  revert H. unfold root_find.
  destruct (_ || _); [discriminate|]. cbn [app].
  destruct (is_almost_equal (A := ar_num) eps_num tiny_num (Num (f xl)) (Num y)) eqn:A1.
  { intros E; injection E as <-. exists xl. split; auto. left. rewrite <- is_almost_equal_spec. auto. }
  destruct (is_almost_equal (A := ar_num) eps_num tiny_num (Num (f xh)) (Num y)) eqn:A2.
  { intros E; injection E as <-. exists xh. split; auto. left. rewrite <- is_almost_equal_spec. auto. }
  intros E.
  assert (Nl : f xl <> y) by (intros K; rewrite K, is_almost_equal_refl in A1; discriminate).
  assert (Nh : f xh <> y) by (intros K; rewrite K, is_almost_equal_refl in A2; discriminate).
  assert (S0 : encloses f y (rf_start (fun x => Num (f x)) (Num y) (Num xl) (Num xh))).
  { apply start_encloses; auto. intros K. apply N. now apply root_find_unsuitable. }
  assert (Y0 : rf_y0 (rf_start (fun x => Num (f x)) (Num y) (Num xl) (Num xh)) =
     app (fun x => Num (f x)) (rf_x0 (rf_start (fun x => Num (f x)) (Num y) (Num xl) (Num xh)))).
  { unfold rf_start. destruct (nlt _ _); reflexivity. }
  destruct (loop_result f y _ _ 100 _ (start_good _ y xl xh) S0 Y0 v E) as [(a & b & Hab & -> & L)|(x1 & Z & -> & L)].
  - eexists. split; [reflexivity|]. right. left. destruct (crossing_near f y a b C Hab) as (z & Hz & Lz).
    exists z. split; auto. lra.
  - eexists. split; [reflexivity|]. right. right. exists x1. repeat split; auto.
    replace (x1 - (f x1 - y) / slope f x1 - x1) with (- ((f x1 - y) / slope f x1)) by ring. now rewrite Rabs_Ropp.
Qed.

Lemma almost_equal_spec_R x y ulp :
  almost_equal (A := ar_num) eps_num tiny_num (Num x) (Num y) ulp = true <->
  Rabs (x - y) < bpow radix2 (-52) * Rabs (x + y) * IZR ulp \/ Rabs (x - y) < bpow radix2 (-1022).
Proof.
  unfold almost_equal, eps_num, tiny_num.
  cbn [a_lt a_abs a_mul a_sub a_add a_of_Z ar_num num_abs num2 num_lt].
  rewrite orb_true_iff.
  assert (B : forall a b, Rlt_bool a b = true <-> a < b).
  { intros a b. destruct (Rlt_bool_spec a b); split; auto; [discriminate|lra]. }
  rewrite !B. tauto.
Qed.

(** x = 1, bracket [0, 3]: a linear function is solved by the first Newton step. *)
Lemma linear_root : root_find (fun x => Num (2 * x)) (Num 2) (Num 1) (Num 3) = Ok (Num 1).
Proof.
  unfold root_find. cbn [app nlt a_lt ar_num num_lt].
  rewrite (Rlt_bool_false 2 (2 * 1)) by lra. rewrite (Rlt_bool_false (2 * 1) 2) by lra. cbn [andb orb].
  replace (2 * 1) with 2 by ring. now rewrite is_almost_equal_refl.
Qed.

Lemma cube_zero : cube 0 = 0.
Proof. unfold cube. ring. Qed.
