(** Proofs for C116. *)
From Coq Require Import List ZArith Reals Bool String Lra Lia Psatz.
From Flocq Require Import Core BinarySingleNaN.
From Verif Require Import Base BaseFacts Flt FltFacts Num Maths_Model Maths_Proofs Spheroid_Model Spheroid_Proofs Extrema_Model Extrema_Spec MakeMap_Model MakeMap_Spec MakeMap_Proofs
  Proj_Model Proj_Spec Proj_Proofs Virtual_Model Virtual_Spec Virtual_Proofs VirtualPlane_Proofs Params_Model
  Fits_Model Fits_Spec Command_Model Command_Spec Command_Proofs Input_Model Entry_Model Entry_Proofs Parse_Model Parse_Spec Parse_Proofs
  Run_Model Run_Spec RunAngle_Proofs RunScale_Proofs Run_Proofs RunPlane_Proofs RunMercator_Spec RunMercator_Proofs RunGrid_Spec RunGrid_Proofs
  RunPolar_Spec RunPolar_Proofs PiBound_Proofs Roots_Model OrthoDouble_Proofs Ortho_Model Ortho_Spec Ortho_Proofs RunOrtho_Spec OrthoPoint_Proofs OrthoCell_Proofs.
Import ListNotations.
Open Scope R_scope.

#[local] Existing Instance prec53.
#[local] Existing Instance emax53.
Local Ltac abs H := apply Rabs_le_inv in H.
Local Notation L X := (x_libm X).

(** ** Angles *)
Lemma degree_pi : Rabs (B2R d_degree - PI / 180) <= 1e-17.
Proof.
  assert (E : 0.017453292519943290 <= B2R d_degree <= 0.017453292519943299).
  { destruct (parts d_degree) as [[m e]|] eqn:P; vm_compute in P; [|discriminate P].
    destruct (parts_value d_degree _ _ P) as [F V]. injection P as <- <-. rewrite V. cbn -[IZR]. lra. }
  pose proof pi_between. apply Rabs_le. lra.
Qed.
Lemma twopi_pi : is_finite d_2pi = true /\ Rabs (B2R d_2pi - 2 * PI) <= 1e-15.
Proof.
  assert (E : is_finite d_2pi = true /\ 6.28318530717958600 <= B2R d_2pi <= 6.2831853071795869).
  { destruct (parts d_2pi) as [[m e]|] eqn:P; vm_compute in P; [|discriminate P].
    destruct (parts_value d_2pi _ _ P) as [F V]. injection P as <- <-. split; [exact F|]. rewrite V. cbn -[IZR]. lra. }
  destruct E as [F E]. split; [exact F|]. pose proof pi_between. apply Rabs_le. lra.
Qed.
Lemma radians_pi (x : double) : is_finite x = true -> Rabs (B2R x) <= 360 ->
  let r := Bmult mode_NE x d_degree in is_finite r = true /\ Rabs (B2R r - radians (B2R x)) <= 5e-15 /\ Rabs (B2R r) <= 6.32.
Proof.
  intros F B. destruct (radians_near x 360 F B ltac:(lia)) as (Fr & Er & Br). cbv zeta in *. split; [exact Fr|].
  pose proof u_value as UV. pose proof eta_u as T. rewrite UV in Er, T. split; [|lra].
  unfold radians. replace (B2R (Bmult mode_NE x d_degree) - B2R x * (PI / 180)) with
    ((B2R (Bmult mode_NE x d_degree) - B2R x * B2R d_degree) + B2R x * (B2R d_degree - PI / 180)) by ring.
  eapply Rle_trans; [apply Rabs_triang|]. rewrite (Rabs_mult (B2R x)).
  assert (Rabs (B2R x) * Rabs (B2R d_degree - PI / 180) <= 360 * 1e-17) by (apply Rmult_le_compat; try apply Rabs_pos; [exact B|exact degree_pi]). lra.
Qed.

Lemma not_polar (x : double) : is_finite x = true -> Rabs (B2R x) <= 89 ->
  almost_equal (A := ar_double) eps_double tiny_double (Babs x) (double_of_Z 90) 4 = false.
Proof.
  intros F B. pose proof u_value as UV. pose proof eta_u as T.
  destruct (abs_val x F) as [Fa Ea]. destruct (double_of_Z_exact 90 ltac:(lia)) as [F9 E9]. destruct (double_of_Z_exact 4 ltac:(lia)) as [F4 E4].
  destruct eps_double_val as [Fe Ee]. assert (Ev : B2R eps_double = 2 * u).
  { rewrite Ee. unfold u. change (-52)%Z with (-53 + 1)%Z. rewrite bpow_plus. cbn. lra. }
  assert (Ft : is_finite tiny_double = true /\ B2R tiny_double < 1e-13).
  { destruct (parts tiny_double) as [[m e]|] eqn:P; vm_compute in P; [|discriminate P].
    destruct (parts_value tiny_double _ _ P) as [F' W]. injection P as <- <-. split; [exact F'|]. rewrite W.
    match goal with |- context [bpow radix2 ?z] => assert (bpow radix2 z <= bpow radix2 (-200)) by (apply bpow_le; lia) end.
    match goal with |- IZR ?m * _ < _ => apply Rle_lt_trans with (IZR m * bpow radix2 (-200)); [apply Rmult_le_compat_l; [lra|assumption]|] end.
    change (bpow radix2 (-200)) with (/ IZR (2 ^ 200)).
    change (IZR (2 ^ 200)) with (IZR 1606938044258990275541962092341162602522202993782792835301376). lra. }
  destruct Ft as [Ft Et]. pose proof (Rabs_pos (B2R x)) as P0. rewrite <- Ea in B, P0. set (m := Babs x) in *. rewrite UV in T.
  destruct (minus_near m (double_of_Z 90) 90) as [Fd Ed]; try assumption; [rewrite E9; apply Rabs_le; lra|lra|].
  rewrite E9, UV in Ed. abs Ed. destruct (abs_val _ Fd) as [Fd' Ed'].
  assert (Dl : 0.99 <= B2R (Babs (Bminus mode_NE m (double_of_Z 90)))).
  { rewrite Ed'. rewrite Rabs_left; lra. }
  destruct (plus_near m (double_of_Z 90) 180) as [Fp Ep]; try assumption; [rewrite E9; apply Rabs_le; lra|lra|].
  rewrite E9, UV in Ep. abs Ep. destruct (abs_val _ Fp) as [Fp' Ep']. set (s := Babs (Bplus mode_NE m (double_of_Z 90))) in *.
  assert (Sl : 0 <= B2R s <= 200). { rewrite Ep'. split; [apply Rabs_pos|]. apply Rabs_le. lra. }
  assert (Pl : 0 <= B2R eps_double * B2R s <= 1e-10).
  { rewrite Ev. split; [apply Rmult_le_pos; rewrite ?UV; lra|]. apply Rle_trans with (2 * u * 200); [apply Rmult_le_compat_l; rewrite ?UV; lra|rewrite UV; lra]. }
  destruct (mult_near eps_double s 1) as [Fm Em]; try assumption; [apply Rabs_le; lra|lra|]. rewrite UV in Em. abs Em.
  set (q := Bmult mode_NE eps_double s) in *.
  destruct (mult_near q (double_of_Z 4) 1) as [Fq Eq]; try assumption; [rewrite E4; apply Rabs_le; lra|lra|]. rewrite E4, UV in Eq. abs Eq.
  unfold almost_equal. cbn [a_lt a_abs a_sub a_add a_mul a_of_Z ar_double].
  apply orb_false_intro; rewrite flt_spec by (now apply finite_not_nan); rewrite !fval_finite by assumption; apply Rlt_bool_false.
  - fold s. fold q. lra.
  - lra.
Qed.

(** ** The view *)
Lemma lon_or (lon : double) : is_finite lon = true -> Rabs (B2R lon) <= 360 ->
  let r := Bmult mode_NE lon d_degree in let l := if flt r (double_of_Z 0) then Bplus mode_NE r d_2pi else r in
  is_finite l = true /\ Rabs (B2R l) <= 7 /\ exists k : Z, Rabs (B2R l - (radians (B2R lon) + 2 * PI * IZR k)) <= 1e-14.
Proof.
  intros F B. destruct (radians_pi lon F B) as (Fr & Er & Br). cbv zeta in *. set (r := Bmult mode_NE lon d_degree) in *.
  destruct (double_of_Z_exact 0 ltac:(lia)) as [F0 E0]. destruct twopi_pi as [F2 E2]. pose proof pi_between as PB.
  pose proof u_value as UV. pose proof eta_u as T. rewrite UV in T.
  rewrite flt_finite, E0 by assumption. abs Br. abs Er. abs E2. destruct (Rlt_bool_spec (B2R r) 0) as [N|N].
  - destruct (plus_near r d_2pi 6.4) as [Fp Ep]; try assumption; [apply Rabs_le; lra|lra|]. rewrite UV in Ep. abs Ep.
    split; [exact Fp|]. split; [apply Rabs_le; lra|]. exists 1%Z. apply Rabs_le. lra.
  - split; [exact Fr|]. split; [apply Rabs_le; lra|]. exists 0%Z. apply Rabs_le. lra.
Qed.

Lemma orientation_near X pro (lat lon pa : double) q : ieee X -> Rabs (B2R lat) <= 89 ->
  orientation (A := ar_double) (x_libm X) pro lat lon pa = Ok q ->
  exists lam, q = ((Bmult mode_NE lat d_degree, lam, Bmult mode_NE pa d_degree, false) : double * double * double * bool) /\
    is_finite lat = true /\ (is_finite pa = true /\ Rabs (B2R pa) <= 360) /\
    is_finite lam = true /\ Rabs (B2R lam) <= 7 /\ exists k : Z, Rabs (B2R lam - (radians (B2R lon) + 2 * PI * IZR k)) <= 1e-14.
Proof.
  intros I B H. unfold orientation, validate_latitude, validate_longitude, validate_position_angle in H. cbn [a_isnan a_lt a_of_Z a_mul a_abs a_add ar_double] in H.
  destruct (is_nan lat || _ || _) eqn:E1; [discriminate|]. cbn [bind] in H.
  destruct (is_nan lon || _ || _) eqn:E2; [discriminate|]. cbn [bind] in H.
  destruct (is_nan pa || _ || _) eqn:E3; [discriminate|]. cbn [bind] in H.
  destruct (validated_bounds lat 90 ltac:(lia) E1) as [F1 _]. destruct (validated_bounds lon 360 ltac:(lia) E2) as [F2 B2].
  destruct (validated_bounds pa 360 ltac:(lia) E3) as [F3 B3].
  rewrite (i_eps X I), (i_tiny X I), (i_degree X I), (i_2pi X I) in H.
  pose proof (not_polar lat F1 B) as NP. cbn [acar ar_double] in H, NP. rewrite NP in H. apply Ok_inj in H. subst q.
  destruct (lon_or lon F2 B2) as (Fl & Bl & Nl). cbv zeta in Fl, Bl, Nl.
  eexists. split; [reflexivity|]. split; [exact F1|]. split; [now split|]. split; [exact Fl|]. split; [exact Bl|exact Nl].
Qed.

(** ** Map parameters *)
Lemma scale_near (eq pol kpp : double) samples lines : is_finite eq = true -> is_finite pol = true ->
  1e-3 <= B2R pol -> B2R pol <= B2R eq -> B2R eq <= 1e9 -> is_finite kpp = true -> B2R kpp <= 0 \/ 1e-6 <= B2R kpp <= 1e9 ->
  (0 < samples < 2 ^ 52)%Z -> (0 < lines < 2 ^ 52)%Z ->
  let given := if flt (double_of_Z 0) kpp then kpp else double_of_Z (-1) in
  let k := if a_le ar_double given (double_of_Z 0)
    then Bdiv mode_NE (Bmult mode_NE (double_of_Z 2) (if flt eq pol then pol else eq))
           (Bmult mode_NE (Bdiv mode_NE (double_of_Z 9) (double_of_Z 10)) (double_of_Z (Z.min samples lines)))
    else given in
  is_finite k = true /\ exists r, resolution (B2R eq) (B2R kpp) samples lines r /\ 1e-20 <= r <= 3e9 /\ Rabs (B2R k - r) <= 5 * u * r.
Proof.
  intros Fe Fp Hc Hle Ha Fk Bk Ss Sl. cbv zeta.
  destruct (double_of_Z_exact 0 ltac:(lia)) as [F0 E0]. destruct (double_of_Z_exact (-1) ltac:(lia)) as [Fm Em].
  pose proof u_value as UV. pose proof u_bounds as U. pose proof eta_tiny as [_ T].
  rewrite (flt_finite (double_of_Z 0) kpp), E0 by assumption.
  destruct (Rlt_bool_spec 0 (B2R kpp)) as [K|K].
  - assert (Z : a_le ar_double kpp (double_of_Z 0) = false).
    { unfold a_le. cbn [a_lt ar_double]. rewrite flt_finite, E0, Rlt_bool_true by assumption. cbn. now rewrite andb_false_r. }
    rewrite Z. split; [exact Fk|]. exists (B2R kpp). split; [left; split; [lra|reflexivity]|]. split; [lra|].
    rewrite Rminus_eq_0, Rabs_R0. apply Rmult_le_pos; lra.
  - assert (Z : a_le ar_double (double_of_Z (-1)) (double_of_Z 0) = true) by (vm_compute; reflexivity). rewrite Z.
    rewrite flt_finite by assumption. rewrite (Rlt_bool_false (B2R eq)) by lra.
    set (n := Z.min samples lines). assert (N : (0 < n < 2 ^ 52)%Z) by (unfold n; lia).
    destruct (double_of_Z_exact n ltac:(lia)) as [Fn En]. destruct (double_of_Z_exact 2 ltac:(lia)) as [F2 E2].
    destruct (double_of_Z_exact 9 ltac:(lia)) as [F9 E9]. destruct (double_of_Z_exact 10 ltac:(lia)) as [F10 E10].
    assert (Nr : 1 <= IZR n <= 4503599627370496) by (split; apply IZR_le; lia). set (v := IZR n) in *.
    set (a := B2R eq) in *.
    destruct (mult_rel (double_of_Z 2) eq F2 Fe) as [Fa Ea]. { rewrite E2. fold a. apply Rabs_le. lra. }
    rewrite E2 in Ea. fold a in Ea. rewrite (Rabs_pos_eq (2 * a)) in Ea by lra. set (p := Bmult mode_NE (double_of_Z 2) eq) in *.
    destruct (div_rel (double_of_Z 9) (double_of_Z 10) F9) as [Fd Ed]; rewrite ?E9, ?E10 in *; [lra|apply Rabs_le; lra|].
    rewrite (Rabs_pos_eq (9 / 10)) in Ed by lra. set (d := Bdiv mode_NE (double_of_Z 9) (double_of_Z 10)) in *.
    assert (Dd : 0.8 <= B2R d <= 1). { rewrite UV in Ed. abs Ed. lra. }
    assert (Dv : 0.8 <= B2R d * v <= 4503599627370496). { split; [apply Rle_trans with (0.8 * 1); [lra|apply Rmult_le_compat; lra]|]. apply Rle_trans with (1 * 4503599627370496); [apply Rmult_le_compat; lra|lra]. }
    destruct (mult_rel d (double_of_Z n) Fd Fn) as [Fq Eq]. { rewrite En. fold v. apply Rabs_le. lra. }
    rewrite En in Eq. fold v in Eq. rewrite (Rabs_pos_eq (B2R d * v)) in Eq by lra. set (q := Bmult mode_NE d (double_of_Z n)) in *.
    assert (Ep' : Rabs (B2R p - 2 * a) <= 1.1 * u * (2 * a)). { rewrite UV in *. eapply Rle_trans; [exact Ea|]. lra. }
    assert (Eq1 : Rabs (B2R d * v - 9 / 10 * v) <= 1.1 * u * (9 / 10 * v)).
    { rewrite <- Rmult_minus_distr_r, Rabs_mult, (Rabs_pos_eq v) by lra. rewrite <- Rmult_assoc. apply Rmult_le_compat_r; [lra|]. rewrite UV in *. lra. }
    assert (Eq2 : Rabs (B2R q - 9 / 10 * v) <= 2.3 * u * (9 / 10 * v)). { rewrite UV in *. abs Eq. abs Eq1. apply Rabs_le. lra. }
    set (w := 9 / 10 * v) in *. assert (W : 0.9 <= w <= 4503599627370496) by (unfold w; lra).
    assert (Bq : 0.8 <= B2R q <= 4503599627370500). { rewrite UV in Eq2. abs Eq2. lra. }
    assert (Bp : 0 <= B2R p <= 3e9). { rewrite UV in Ep'. abs Ep'. lra. }
    assert (Iq : 0 < / B2R q <= 1.25). { split; [apply Rinv_0_lt_compat; lra|]. replace 1.25 with (/ 0.8) by lra. apply Rinv_le; lra. }
    destruct (div_rel p q Fa) as [Fr Er]; [lra| |].
    { unfold Rdiv. rewrite Rabs_pos_eq by (apply Rmult_le_pos; lra). apply Rle_trans with (3e9 * 1.25); [apply Rmult_le_compat; lra|lra]. }
    split; [exact Fr|]. exists (2 * a / w). set (r := 2 * a / w). set (k := Bdiv mode_NE p q) in *.
    assert (Rw : r * w = 2 * a) by (unfold r; field; lra).
    assert (Iw : / 4503599627370496 <= / w <= 1.2). { split; [apply Rinv_le; lra|]. apply Rle_trans with (/ 0.9); [apply Rinv_le; lra|lra]. }
    assert (Br : 1e-20 <= r <= 3e9).
    { unfold r, Rdiv. split; [apply Rle_trans with (2e-3 * / 4503599627370496); [lra|apply Rmult_le_compat; lra]|].
      apply Rle_trans with (2e9 * 1.2); [apply Rmult_le_compat; lra|lra]. }
    split; [right; split; [exact K|]; fold n v; unfold w in Rw; lra|]. split; [exact Br|].
    assert (Q : Rabs (B2R p / B2R q - r) <= 3.5 * u * r).
    { replace (B2R p / B2R q - r) with (((B2R p - 2 * a) - r * (B2R q - w)) * / B2R q) by (rewrite <- Rw; field; lra).
      rewrite Rabs_mult, (Rabs_pos_eq (/ B2R q)) by lra.
      assert (Rabs (B2R p - 2 * a - r * (B2R q - w)) <= 3.45 * u * (r * w)).
      { unfold Rminus at 1. eapply Rle_trans; [apply Rabs_triang|]. rewrite Rabs_Ropp, (Rabs_mult r), (Rabs_pos_eq r) by lra.
        assert (r * Rabs (B2R q - w) <= r * (2.3 * u * w)) by (apply Rmult_le_compat_l; lra). assert (E : u * (2 * a) = u * (r * w)) by (now rewrite Rw).
        assert (0 <= u * (r * w)) by (rewrite Rw; apply Rmult_le_pos; lra). lra. }
      apply Rmult_le_reg_r with (B2R q); [lra|]. rewrite Rmult_assoc, Rinv_l, Rmult_1_r by lra. eapply Rle_trans; [exact H|].
      assert (w <= 1.001 * B2R q) by (rewrite UV in Eq2; abs Eq2; lra).
      assert (u * r * w <= u * r * (1.001 * B2R q)) by (apply Rmult_le_compat_l; [apply Rmult_le_pos; lra|assumption]).
      assert (0 <= u * r * B2R q) by (repeat apply Rmult_le_pos; lra). lra. }
    assert (B2R p / B2R q <= 1.001 * r). { rewrite UV in Q. abs Q. lra. }
    rewrite (Rabs_pos_eq (B2R p / B2R q)) in Er by (unfold Rdiv; apply Rmult_le_pos; lra). rewrite UV in *. abs Er. abs Q. apply Rabs_le. lra.
Qed.

Lemma place_near (i : Z) (s k : double) r : (0 <= i < 2 ^ 52)%Z -> is_finite s = true -> Rabs (B2R s) <= 4503599627370496 ->
  is_finite k = true -> 1e-20 <= r <= 3e9 -> Rabs (B2R k - r) <= 5 * u * r ->
  let x := Bmult mode_NE (Bminus mode_NE (Bplus mode_NE (double_of_Z i) (half (A := ar_double))) s) k in
  is_finite x = true /\ Rabs (km r (B2R s) (IZR i + / 2)) <= 1e26 /\
  Rabs (B2R x - km r (B2R s) (IZR i + / 2)) <= 1e-15 * Rabs (km r (B2R s) (IZR i + / 2)) + 1e-110.
Proof.
  intros I Fs Bs Fk Br Nk. cbv zeta. destruct (middle_val i ltac:(lia)) as [Fi Ei]. set (m := Bplus mode_NE _ _) in *.
  assert (Ir : 0 <= IZR i <= 4503599627370496) by (split; apply IZR_le; lia).
  pose proof u_value as UV. pose proof eta_tiny as [T0 T]. assert (Bs' := Bs). abs Bs'.
  set (o := IZR i + / 2 - B2R s). assert (Bo : Rabs o <= 1e16) by (apply Rabs_le; unfold o; lra).
  destruct (minus_rel m s Fi Fs) as [Fo Eo]; [rewrite Ei; fold o; lra|]. rewrite Ei in Eo. fold o in Eo. set (d := Bminus mode_NE m s) in *.
  unfold km. fold o. set (V := o * r). assert (Vo : Rabs V = Rabs o * r) by (unfold V; rewrite Rabs_mult, (Rabs_pos_eq r) by lra; reflexivity).
  assert (O0 := Rabs_pos o). assert (BV : Rabs V <= 3e25). { rewrite Vo. apply Rle_trans with (1e16 * 3e9); [apply Rmult_le_compat; lra|lra]. }
  assert (K : 0 <= B2R k <= 1.001 * r). { rewrite UV in Nk. abs Nk. lra. }
  assert (D : Rabs (B2R d * B2R k - V) <= 6.1 * u * Rabs V + 4e-111).
  { unfold V. replace (B2R d * B2R k - o * r) with ((B2R d - o) * B2R k + o * (B2R k - r)) by ring. eapply Rle_trans; [apply Rabs_triang|].
    rewrite !Rabs_mult, (Rabs_pos_eq (B2R k)), (Rabs_pos_eq r) by lra.
    assert (A1 : Rabs (B2R d - o) * B2R k <= (u * Rabs o + eta) * (1.001 * r)) by (apply Rmult_le_compat; try apply Rabs_pos; lra).
    assert (A2 : Rabs o * Rabs (B2R k - r) <= Rabs o * (5 * u * r)) by (apply Rmult_le_compat_l; lra).
    assert (A3 : eta * (1.001 * r) <= 1e-120 * (1.001 * 3e9)) by (apply Rmult_le_compat; lra).
    assert (A4 : 0 <= u * (Rabs o * r)) by (apply Rmult_le_pos; [rewrite UV; lra|apply Rmult_le_pos; lra]).
    rewrite Rmult_plus_distr_r in A1. lra. }
  assert (V0 := Rabs_pos V).
  assert (S : Rabs (B2R d * B2R k) <= 1.001 * Rabs V + 1e-110).
  { replace (B2R d * B2R k) with (B2R d * B2R k - V + V) by ring. eapply Rle_trans; [apply Rabs_triang|]. rewrite UV in D. lra. }
  destruct (mult_rel d k Fo Fk) as [Fx Ex]; [lra|]. split; [exact Fx|]. split; [lra|].
  replace (B2R (Bmult mode_NE d k) - V) with ((B2R (Bmult mode_NE d k) - B2R d * B2R k) + (B2R d * B2R k - V)) by ring.
  eapply Rle_trans; [apply Rabs_triang|]. rewrite UV in Ex, D. lra.
Qed.

(** ** The factory *)
Lemma half_size n : (0 < n < 2 ^ 52)%Z -> let x := Bdiv mode_NE (double_of_Z n) (double_of_Z 2) in is_finite x = true /\ B2R x = IZR n / 2.
Proof.
  intros N. cbv zeta. destruct (double_of_Z_exact n ltac:(lia)) as [Fn En]. destruct (double_of_Z_exact 2 ltac:(lia)) as [_ E2].
  pose proof (Bdiv_correct 53 1024 _ _ mode_NE (double_of_Z n) (double_of_Z 2)) as C. cbn [round_mode] in C. rewrite En, E2 in C.
  specialize (C ltac:(lra)). rewrite (exact_half n) in C by lia. rewrite Rlt_bool_true in C by (apply small_half; lia).
  destruct C as (E & F & _). rewrite Fn in F. now split.
Qed.

Lemma ortho_made X (b : body) sub_lat sub_lon angle kpp c q samples lines : ieee X ->
  plain_view (Spheroid_Model.eq_rad b) (Spheroid_Model.pol_rad b) sub_lat kpp c -> (0 < samples < 2 ^ 52)%Z -> (0 < lines < 2 ^ 52)%Z ->
  ortho_of X b sub_lat sub_lon angle kpp c = Ok q ->
  exists (lam kk sc lc kp s l lc' lonc : double) r,
    q = @Ortho ar_double (Bmult mode_NE sub_lat d_degree) lam (Bmult mode_NE angle d_degree) kp s l lc' lonc false /\
    map_parameters (A := ar_double) (Spheroid_Model.eq_rad b) (Spheroid_Model.pol_rad b) q samples lines = (kk, sc, lc) /\
    is_finite sub_lat = true /\ (is_finite angle = true /\ Rabs (B2R angle) <= 360) /\
    (is_finite lam = true /\ Rabs (B2R lam) <= 7 /\ exists k : Z, Rabs (B2R lam - (radians (B2R sub_lon) + 2 * PI * IZR k)) <= 1e-14) /\
    is_finite kk = true /\ resolution (B2R (Spheroid_Model.eq_rad b)) (B2R kpp) samples lines r /\ 1e-20 <= r <= 3e9 /\ Rabs (B2R kk - r) <= 5 * u * r /\
    center_at c samples lines (B2R sc) (B2R lc) /\
    is_finite sc = true /\ Rabs (B2R sc) <= 4503599627370496 /\ is_finite lc = true /\ Rabs (B2R lc) <= 4503599627370496.
Proof.
  intros I V Ss Sl H. destruct V as [Fe Fp (Hc & [Hle _] & Ha) Hlat _ [Fk Bk] Pc].
  unfold ortho_of, ortho_new in H. destruct (orientation _ _ _ _ _) as [o| |] eqn:O; cbn [bind] in H; try discriminate.
  destruct (orientation_near X (prograde b) sub_lat sub_lon angle o I Hlat O) as (lam & -> & F1 & F2 & Nl).
  destruct (scale_near _ _ kpp samples lines Fe Fp Hc Hle Ha Fk Bk Ss Sl) as (Fkk & r & Rr & Br & Nk). cbv zeta in Fkk, Nk.
  destruct c as [|s l|]; cbn [plain_center] in Pc; [| |destruct Pc].
  - apply Ok_inj in H. subst q. destruct (half_size samples Ss) as [Fs Es]. destruct (half_size lines Sl) as [Fl El]. cbv zeta in *.
    do 9 eexists. exists r. split; [reflexivity|]. split.
    { unfold map_parameters. cbn [o_kpp o_latc o_lonc o_sc o_lc a_isnan ar_double]. reflexivity. }
    do 2 (split; [assumption|]). split; [exact Nl|]. split; [exact Fkk|]. split; [exact Rr|]. split; [exact Br|]. split; [exact Nk|].
    cbn [a_div a_of_Z ar_double]. split; [now split|].
    assert (0 < IZR samples <= 4503599627370496 /\ 0 < IZR lines <= 4503599627370496) by (split; split; [apply IZR_lt|apply IZR_le|apply IZR_lt|apply IZR_le]; lia).
    repeat split; try assumption; [rewrite Es|rewrite El]; apply Rabs_le; lra.
  - apply Ok_inj in H. subst q. destruct Pc as (Fs & Fl & Bs & Bl).
    do 9 eexists. exists r. split; [reflexivity|]. split.
    { unfold map_parameters. cbn [o_kpp o_latc o_lonc o_sc o_lc a_isnan ar_double].
      rewrite (finite_not_nan _ Fs : is_nan (s : double) = false), (finite_not_nan _ Fl : is_nan (l : double) = false). reflexivity. }
    do 2 (split; [assumption|]). split; [exact Nl|]. split; [exact Fkk|]. split; [exact Rr|]. split; [exact Br|]. split; [exact Nk|].
    split; [now split|]. repeat split; try assumption; lra.
Qed.

(** ** A cell *)
Lemma cell_near X (b : body) sub_lat sub_lon angle kpp c q samples lines : ieee X -> close_library (x_libm X) ->
  (forall p q r, x_roots X p q r = double_roots p q r) ->
  plain_view (Spheroid_Model.eq_rad b) (Spheroid_Model.pol_rad b) sub_lat kpp c -> (0 < samples < 2 ^ 52)%Z -> (0 < lines < 2 ^ 52)%Z ->
  ortho_of X b sub_lat sub_lon angle kpp c = Ok q -> map_size samples lines ->
  exists phi lam pa r sc lc,
    sees sub_lat sub_lon angle phi lam pa /\ resolution (B2R (Spheroid_Model.eq_rad b)) (B2R kpp) samples lines r /\ center_at c samples lines sc lc /\
    forall calls o, ortho_plot_map (A := ar_double) (x_libm X) (x_roots X) (prograde b) (Spheroid_Model.eq_rad b) (Spheroid_Model.pol_rad b) q samples lines = (calls, Ok o) ->
    forall k i, (0 <= k < lines)%Z -> (0 <= i < samples)%Z ->
    let x := km r sc (IZR i + / 2) in let z := km r lc (IZR k + / 2) in
    (1 - 1e-12 <= outline (B2R (Spheroid_Model.eq_rad b)) (B2R (Spheroid_Model.pol_rad b)) pa x z /\ forall q, ~ plotted samples calls k i q) \/
    exists la lo : double, plotted samples calls k i (la, lo) /\ is_finite la = true /\ is_finite lo = true /\ Rabs (B2R la) <= B2R d_pi2 /\ Rabs (B2R lo) <= 16 /\
      exists lat lon, Rabs (B2R la - lat) <= 1e-15 /\ Rabs (B2R lo - lon) <= 1e-14 /\
        is_seen (B2R (Spheroid_Model.eq_rad b)) (B2R (Spheroid_Model.pol_rad b)) (prograde b) phi lam pa x z lat lon.
Proof.
  intros I CL Rt V Ss Sl H Sz.
  destruct (ortho_made X b sub_lat sub_lon angle kpp c q samples lines I V Ss Sl H)
    as (lam & kk & sc & lc & kp & s & l & lc' & lonc & r & -> & Mp & F1 & (F2 & B2) & (Fl & Bl & Nl) & Fkk & Rr & Br & Nk & Ca & Fsc & Bsc & Flc & Blc).
  destruct V as [Fe Fp (Hc & [Hle Hflat] & Ha) Hlat Hview _ _].
  destruct (radians_pi sub_lat F1 ltac:(lra)) as (Fphi & Nphi & Bphi). destruct (radians_pi angle F2 B2) as (Fpa & Npa & Bpa). cbv zeta in *.
  set (phi := Bmult mode_NE sub_lat d_degree) in *. set (pa := Bmult mode_NE angle d_degree) in *.
  assert (Bphi' : Rabs (B2R phi) <= 2).
  { pose proof pi_between as PB. unfold radians in Nphi. apply Rabs_le_inv in Hlat, Nphi.
    assert (Q : - (89) * (PI / 180) <= B2R sub_lat * (PI / 180) <= 89 * (PI / 180)) by (split; apply Rmult_le_compat_r; lra). apply Rabs_le. lra. }
  assert (Hv : B2R (Spheroid_Model.pol_rad b) = B2R (Spheroid_Model.eq_rad b) \/ B2R phi = 0).
  { destruct Hview as [E|E]; [now left|right]. destruct degree_val as [Fd _].
    destruct (zero_product sub_lat d_degree F1 Fd (or_introl E)) as [_ Z]. exact Z. }
  exists (B2R phi), (B2R lam), (B2R pa), r, (B2R sc), (B2R lc).
  split. { split; [lra|]. split; [exact Nl|lra]. }
  split; [exact Rr|]. split; [exact Ca|]. intros calls o Em k i Hk Hi. cbv zeta.
  destruct (ortho_offsets ar_double (x_libm X) (x_roots X) (prograde b) (Spheroid_Model.eq_rad b) (Spheroid_Model.pol_rad b)
    (@Ortho ar_double phi lam pa kp s l lc' lonc false) samples lines Sz) as (calls' & o' & Em' & _ & _ & Pl).
  rewrite Em in Em'. injection Em' as <- <-. specialize (Pl k i Hk Hi kk sc lc Mp). cbn [a_mul a_sub a_add a_of_Z ar_double] in Pl.
  destruct (place_near i sc kk r ltac:(lia) Fsc Bsc Fkk Br Nk) as (Fx & Bx & Nx).
  destruct (place_near k lc kk r ltac:(lia) Flc Blc Fkk Br Nk) as (Fz & Bz & Nz). cbv zeta in *.
  set (x := Bmult mode_NE (Bminus mode_NE (Bplus mode_NE (double_of_Z i) _) _) _) in *.
  set (z := Bmult mode_NE (Bminus mode_NE (Bplus mode_NE (double_of_Z k) _) _) _) in *.
  assert (Op : ortho_point (A := ar_double) (x_libm X) (x_roots X) (prograde b) (Spheroid_Model.eq_rad b) (Spheroid_Model.pol_rad b)
                 (@Ortho ar_double phi lam pa kp s l lc' lonc false) x z
             = ortho_point (A := ar_double) (x_libm X) double_roots (prograde b) (Spheroid_Model.eq_rad b) (Spheroid_Model.pol_rad b)
                 (@Ortho ar_double phi lam pa kp s l lc' lonc false) x z).
  { unfold ortho_point. cbn [o_polar o_lat o_lon o_pa]. now rewrite Rt. }
  pose proof (point_near (x_libm X) (prograde b) (Spheroid_Model.eq_rad b) (Spheroid_Model.pol_rad b) phi lam pa kp s l lc' lonc x z
    CL Fe Fp Hc Hle Hflat Ha Fphi Bphi' Fl Bl Fpa ltac:(lra) Hv Fx Fz _ _ Bx Bz Nx Nz) as PN.
  rewrite <- Op in PN.
  destruct (ortho_point _ _ _ _ _ _ _ _) as [[la lo]|].
  - right. exists la, lo. split; [now apply Pl|exact PN].
  - left. split; [exact PN|]. intros q Q. apply Pl in Q. discriminate.
Qed.

(** ** Degrees *)
Lemma degree_of (x : double) r e : is_finite x = true -> Rabs (B2R x - r) <= e -> 0 <= e <= 1e-14 -> Rabs (B2R x) <= 16.5 ->
  let d := r * (180 / PI) in Rabs (B2R x - d * B2R d_degree) <= e + 1e-17 * Rabs d /\ Rabs d <= 1000.
Proof.
  intros F N He B. cbv zeta. pose proof pi_between as PB. set (d := r * (180 / PI)).
  assert (R : r = d * (PI / 180)) by (unfold d; field; lra).
  split.
  - replace (B2R x - d * B2R d_degree) with ((B2R x - r) - d * (B2R d_degree - PI / 180)) by (rewrite R; ring).
    unfold Rminus at 1. eapply Rle_trans; [apply Rabs_triang|]. rewrite Rabs_Ropp, (Rabs_mult d).
    assert (Rabs d * Rabs (B2R d_degree - PI / 180) <= Rabs d * 1e-17) by (apply Rmult_le_compat_l; [apply Rabs_pos|exact degree_pi]). lra.
  - assert (Br : Rabs r <= 16.6) by (abs N; abs B; apply Rabs_le; lra). unfold d. rewrite Rabs_mult, (Rabs_pos_eq (180 / PI)).
    + assert (180 / PI <= 60). { apply Rmult_le_reg_r with PI; [lra|]. unfold Rdiv. rewrite Rmult_assoc, Rinv_l by lra. lra. }
      apply Rle_trans with (16.6 * 60); [apply Rmult_le_compat; try apply Rabs_pos; try lra|lra]. unfold Rdiv. apply Rmult_le_pos; [lra|left; apply Rinv_0_lt_compat; lra].
    + unfold Rdiv. apply Rmult_le_pos; [lra|left; apply Rinv_0_lt_compat; lra].
Qed.

Lemma latitude_cell X g (la lo : double) lat : ieee X -> is_finite la = true -> Rabs (B2R la) <= B2R d_pi2 -> Rabs (B2R la - lat) <= 1e-15 ->
  exists x, latitude_data (A := ar_double) (x_libm X) g false la lo = Ok (Some x) /\ is_finite x = true /\ -90 <= B2R x <= 90 /\ Rabs (B2R x - lat * (180 / PI)) <= 2e-13.
Proof.
  intros I F B N.
  destruct (latitude_double_range (x_libm X) g false la lo (i_pi2 X I) (i_degree X I) (finite_not_nan _ F) ltac:(discriminate)) as [In _].
  destruct (In (conj F B)) as (x & Rx & Fx & Bx). exists x. split; [exact Rx|]. split; [exact Fx|]. split; [exact Bx|].
  assert (x = Bdiv mode_NE la d_degree) as ->.
  { unfold latitude_data in Rx. rewrite (i_degree X I) in Rx. destruct (_ || _) in Rx; [discriminate|]. cbv zeta iota in Rx. symmetry. now injection Rx. }
  pose proof u_value as UV. destruct degree_val as [_ DV]. destruct pi2_val as [_ P2]. pose proof pi_between as PB.
  assert (B2 : B2R d_pi2 <= 1.5708) by (abs P2; rewrite UV in P2; lra).
  destruct (degree_of la lat 1e-15 F N ltac:(lra) ltac:(lra)) as [Nd Bd]. cbv zeta in Nd, Bd. set (d := lat * (180 / PI)) in *.
  assert (Bd' : Rabs d <= 91).
  { abs N. abs B. unfold d. rewrite Rabs_mult, (Rabs_pos_eq (180 / PI)) by (unfold Rdiv; apply Rmult_le_pos; [lra|left; apply Rinv_0_lt_compat; lra]).
    apply Rmult_le_reg_r with PI; [lra|]. replace (Rabs lat * (180 / PI) * PI) with (Rabs lat * 180) by (field; lra).
    assert (Rabs lat <= 1.571) by (apply Rabs_le; lra). lra. }
  destruct (degrees_near la d (1e-15 + 1e-17 * 91) 91 F) as [_ Q]; try lia; try lra.
Qed.

Lemma longitude_cell X (la lo : double) lon : ieee X -> is_finite lo = true -> Rabs (B2R lo) <= 16 -> Rabs (B2R lo - lon) <= 1e-14 ->
  exists x, longitude_data (A := ar_double) (x_circle X) (l_degree (x_libm X)) (x_fmod X) la lo = Ok (Some x) /\ is_finite x = true /\ 0 <= B2R x <= 360 /\
    exists z, Rabs (B2R x - (lon * (180 / PI) + 360 * IZR z)) <= 1e-11.
Proof.
  intros I F B N. destruct (degree_of lo lon 1e-14 F N ltac:(lra) ltac:(lra)) as [Nd Bd]. cbv zeta in Nd, Bd. pose proof u_value as UV.
  rewrite (i_degree X I), (i_circle X I).
  exact (RunAngle_Proofs.longitude_value (x_fmod X) lo (lon * (180 / PI)) (i_fmod X I) F ltac:(rewrite UV; lra) Bd).
Qed.

(** ** The file *)
Lemma ortho_projection X b o x : projection_of (x_fmod X) (l_degree (x_libm X)) (x_centric X) (constructs X) b (T_ortho o) = Some x ->
  exists sub_lat sub_lon angle kpp c, x = Orthographic b sub_lat sub_lon angle kpp c /\
    projection_args (x_fmod X) (l_degree (x_libm X)) (x_centric X) b (T_ortho o) = Some x.
Proof.
  unfold projection_of. destruct (projection_args _ _ _ b (T_ortho o)) as [y|] eqn:P; cbn [obind]; [|discriminate].
  intros H. assert (y = x) as -> by (destruct (constructs X y); cbn [nothing_thrown] in H; [discriminate|now injection H]).
  destruct o as [[av oo]|]; cbn [projection_args] in P.
  - unfold obind in P. repeat match type of P with context [match ?t with _ => _ end] => destruct t; try discriminate end;
    injection P as <-; do 5 eexists; split; reflexivity.
  - injection P as <-. do 5 eexists. split; reflexivity.
Qed.

Theorem ortho_map X fuel status left_over removable u d0 ts cmds n e o :
  ieee X -> close_library (x_libm X) -> (forall p q r, x_roots X p q r = double_roots p q r) ->
  (forall n, status n = 0%Z) -> accurate (x_scale X) -> in_force u d0 ->
  unmixed ts -> commands_of X (texts u ts) = Ok (Some cmds) ->
  nth_error (maps_of ts) n = Some e -> me_projection e = T_ortho o ->
  exists m b sub_lat sub_lon angle kpp c0, nth_error cmds n = Some m /\ body_spheroid (me_prograde e) (me_radii e) = Ok b /\
  projection_args (x_fmod X) (l_degree (x_libm X)) (x_centric X) b (T_ortho o) = Some (Orthographic b sub_lat sub_lon angle kpp c0) /\
  let eq := Spheroid_Model.eq_rad b in let pol := Spheroid_Model.pol_rad b in
  (fits_size m -> (mc_lines m < 2 ^ 52)%Z -> (mc_samples m < 2 ^ 52)%Z -> plain_view eq pol sub_lat kpp c0 ->
   forall c w w' r, command_of X fuel m = Some c -> execute status left_over removable c w = (w', Ok r) ->
   exists phi lam pa k sc lc, sees sub_lat sub_lon angle phi lam pa /\
   resolution (B2R eq) (B2R kpp) (mc_samples m) (mc_lines m) k /\ center_at c0 (mc_samples m) (mc_lines m) sc lc /\
   forall j p, nth_error (me_plane e :: me_more_planes e) j = Some p -> limits_say d0 (pe_range p) = Some ex_empty ->
   (pe_type p = T_latitude None \/ pe_type p = T_latitude (Some Centric) \/ pe_type p = T_longitude) ->
   exists params t axes cards d rest,
    populate_map_parameters (map (parameters_of X) (mc_images m)) (mc_params m) = Ok params /\
    type_of_bitpix (p_bitpix params) = Some t /\
    w_file w' = new_file (Hdu t axes cards d :: rest) /\
    forall line i, (0 <= line < mc_lines m)%Z -> (0 <= i < mc_samples m)%Z ->
    let x := km k sc (IZR i + / 2) in let z := km k lc (IZR line + / 2) in
    exists v, d (element m (Z.of_nat j) line i) = Some (existT _ t v) /\
     ((blank_of t (p_blank params) = Some v /\ 1 - 1e-12 <= outline (B2R eq) (B2R pol) pa x z) \/
      exists lat lon y, is_seen (B2R eq) (B2R pol) (prograde b) phi lam pa x z lat lon /\
       stands_for t cards (Z.of_nat (List.length (mc_images m))) (Z.of_nat j + 1) v y /\
       (pe_type p <> T_longitude -> Rabs (y - lat * (180 / PI)) <= tolerance t latitude_plane + 1e-12) /\
       (pe_type p = T_longitude -> - tolerance t longitude_plane <= y <= 360 + tolerance t longitude_plane /\
        exists turns : Z, Rabs (y - (lon * (180 / PI) + 360 * IZR turns)) <= tolerance t longitude_plane + 1e-11))).
Proof.
  intros I CL Rt Hs A D0 U H N P. destruct (entry_command X u ts cmds n e U H N) as (d1 & m & b & D & Nm & FI & Hb & Pm & _ & Im).
  pose proof (force_defaults u d0 D0) as D'. rewrite D in D'. injection D' as ->.
  destruct (ortho_projection X b o (mc_projection m)) as (sub_lat & sub_lon & angle & kpp & c0 & Pj & Pa). { rewrite <- P. exact Pm. }
  rewrite Pj in Pa. exists m, b, sub_lat, sub_lon, angle, kpp, c0. split; [exact Nm|]. split; [exact Hb|]. split; [exact Pa|]. cbv zeta.
  intros Fs Tall Small V c w w' r C E.
  destruct (ortho_of X b sub_lat sub_lon angle kpp c0) as [q| |] eqn:Q.
  2, 3: exfalso; destruct (Im 0%nat (me_plane e) eq_refl) as (f & Jf & _).
  2, 3: destruct (elements X fuel status left_over removable m c w w' r Hs (input_ready X m FI) Fs C E) as (? & ? & ? & ? & ? & ? & ? & _ & _ & _ & Pc & _).
  2, 3: rewrite Pj in Pc; cbn [calls_of] in Pc; rewrite Q in Pc; discriminate.
  assert (Sz : map_size (mc_samples m) (mc_lines m)).
  { destruct (Im 0%nat (me_plane e) eq_refl) as (f & Jf & _). exact (proj1 (command_size m 0 f Fs Jf)). }
  assert (S0 : (0 < mc_samples m < 2 ^ 52)%Z /\ (0 < mc_lines m < 2 ^ 52)%Z) by (destruct Fs as (S1 & S2 & _); lia).
  destruct (cell_near X b sub_lat sub_lon angle kpp c0 q _ _ I CL Rt V (proj1 S0) (proj2 S0) Q Sz) as (phi & lam & pa & k & sc & lc & Se & Re & Ce & Cn).
  exists phi, lam, pa, k, sc, lc. split; [exact Se|]. split; [exact Re|]. split; [exact Ce|].
  intros j p J R T. destruct (Im j p J) as (f & Jf & Lf & S1 & S2). rewrite R in Lf. injection Lf as Lf. symmetry in Lf.
  assert (T' : (pe_type p <> T_longitude /\ if_source f = F_latitude b false) \/ (pe_type p = T_longitude /\ if_source f = F_longitude)).
  { destruct T as [T|[T|T]]; [left|left|right]; (split; [congruence|]); [now rewrite (S1 _ T)|now rewrite (S1 _ T)|exact (S2 T)]. }
  destruct T' as [[T1 T2]|[T1 T2]].
  - assert (Cm : computes X (if_source f) latitude_plane (latitude_data (A := ar_double) (x_libm X) (x_graphic X b) false)) by (rewrite T2; constructor).
    destruct (computed_cells X fuel status left_over removable m c w w' r j f _ _ Hs (input_ready X m FI) Fs A C E Jf Lf Cm)
      as (params & t & axes & cards & d & rest & o' & Pp & Pt & Pf & Pc & Cell).
    exists params, t, axes, cards, d, rest. do 3 (split; [assumption|]). intros line i Hl Hi.
    rewrite Pj in Pc. cbn [calls_of] in Pc. rewrite Q in Pc. specialize (Cn _ _ Pc line i Hl Hi). cbv zeta in Cn.
    destruct (Cell line i Hl Hi) as (v & Ev & St & Bk). exists v. split; [exact Ev|].
    destruct Cn as [[Out No]|(la & lo & Pl & Fla & Flo & Bla & Blo & lat & lon & Nla & Nlo & Seen)]; [left; split; [exact (Bk No)|exact Out]|right].
    destruct (latitude_cell X (x_graphic X b) la lo lat I Fla Bla Nla) as (x & Rx & Fx & Bx & Nx).
    destruct (St _ Pl) as [St' _]. cbn [fst snd] in St'. destruct (St' x Rx Fx Bx) as (y & Sy & Ny).
    exists lat, lon, y. split; [exact Seen|]. split; [exact Sy|]. split; [|intros T3; destruct (T1 T3)].
    intros _. abs Ny. abs Nx. apply Rabs_le. lra.
  - assert (Cm : computes X (if_source f) longitude_plane (longitude_data (A := ar_double) (x_circle X) (l_degree (x_libm X)) (x_fmod X))) by (rewrite T2; constructor).
    destruct (computed_cells X fuel status left_over removable m c w w' r j f _ _ Hs (input_ready X m FI) Fs A C E Jf Lf Cm)
      as (params & t & axes & cards & d & rest & o' & Pp & Pt & Pf & Pc & Cell).
    exists params, t, axes, cards, d, rest. do 3 (split; [assumption|]). intros line i Hl Hi.
    rewrite Pj in Pc. cbn [calls_of] in Pc. rewrite Q in Pc. specialize (Cn _ _ Pc line i Hl Hi). cbv zeta in Cn.
    destruct (Cell line i Hl Hi) as (v & Ev & St & Bk). exists v. split; [exact Ev|].
    destruct Cn as [[Out No]|(la & lo & Pl & Fla & Flo & Bla & Blo & lat & lon & Nla & Nlo & Seen)]; [left; split; [exact (Bk No)|exact Out]|right].
    destruct (longitude_cell X la lo lon I Flo Blo Nlo) as (x & Rx & Fx & Bx & turns & Nx).
    destruct (St _ Pl) as [St' _]. cbn [fst snd] in St'. destruct (St' x Rx Fx Bx) as (y & Sy & Ny).
    exists lat, lon, y. split; [exact Seen|]. split; [exact Sy|]. split; [intros T3; destruct (T3 T1)|].
    intros _. abs Ny. abs Nx. split; [lra|]. exists turns. apply Rabs_le. lra.
Qed.
