(** Proofs for C55, C56, C60 and C88: contents of computed planes. *)
From Coq Require Import List ZArith Reals Bool Lra Lia Psatz.
From Flocq Require Import Core BinarySingleNaN.
From Verif Require Import Base BaseFacts Flt FltFacts Num Extrema_Model Spheroid_Model Spheroid_Spec Spheroid_Proofs
  Proj_Model Proj_Proofs Virtual_Model Virtual_Spec Virtual_Proofs.
Open Scope R_scope.

#[local] Existing Instance prec53.
#[local] Existing Instance emax53.
#[local] Existing Instance valid53.

Local Notation rnd := (round radix2 (SpecFloat.fexp 53 1024) ZnearestE).

(** ** C55 *)

Lemma read_follows (A : arith) (s o : A) physical lat lon :
  (read_virtual s o physical lat lon = Ok None <-> physical lat lon = Ok None) /\
  (forall e, read_virtual s o physical lat lon = Throw e <-> physical lat lon = Throw e) /\
  (forall u, read_virtual s o physical lat lon = UB u <-> physical lat lon = UB u).
Proof.
  unfold read_virtual. destruct (physical lat lon) as [[v|]|e|u]; simpl;
  repeat split; intros; try discriminate; congruence.
Qed.

Lemma trunc_close r : Rabs (IZR (Ztrunc r) - r) < 1.
Proof.
  destruct (Rle_or_lt 0 r).
  - rewrite Ztrunc_floor by assumption. pose proof (Zfloor_lb r). pose proof (Zfloor_ub r). apply Rabs_def1; lra.
  - rewrite Ztrunc_ceil by lra. pose proof (Zceil_ub r). pose proof (Zceil_lb r). apply Rabs_def1; lra.
Qed.

Lemma converts_back s o (physical : ar_num -> ar_num -> outcome (option ar_num)) lat lon v : s <> 0 ->
  physical lat lon = Ok (Some (Num v)) ->
  exists stored bscale bzero,
    read_virtual (A := ar_num) (Num s) (Num o) physical lat lon = Ok (Some (Num stored)) /\
    virtual_scale (A := ar_num) (Num s) = Num bscale /\
    virtual_offset (A := ar_num) (Num s) (Num o) = Num bzero /\
    bscale * stored + bzero = v /\
    Rabs (bscale * IZR (Ztrunc stored) + bzero - v) < 1 / Rabs s.
Proof.
  intros S E. exists (v * s + o), (1 / s), (1 / s * (0 - o)).
  assert (D : virtual_scale (A := ar_num) (Num s) = Num (1 / s)).
  { unfold virtual_scale. cbn. rewrite Req_bool_false by exact S. reflexivity. }
  split; [unfold read_virtual; rewrite E; reflexivity|]. split; [exact D|].
  split; [unfold virtual_offset; rewrite D; reflexivity|]. split; [field; exact S|].
  set (st := v * s + o). pose proof (trunc_close st) as T.
  replace (1 / s * IZR (Ztrunc st) + 1 / s * (0 - o) - v) with ((IZR (Ztrunc st) - st) / s) by (unfold st; field; exact S).
  unfold Rdiv at 1. rewrite Rabs_mult, Rabs_inv. unfold Rdiv. apply Rmult_lt_compat_r; [|exact T].
  apply Rinv_0_lt_compat. now apply Rabs_pos_lt.
Qed.

(** ** C56 *)

Lemma fmod_bounds x y : 0 < y ->
  exists r n, num_fmod (Num x) (Num y) = Num r /\ x = r + IZR n * y /\ - y < r < y.
Proof.
  intros Y. exists (x - IZR (Ztrunc (x / y)) * y), (Ztrunc (x / y)).
  split; [unfold num_fmod; cbn; rewrite Req_bool_false by lra; reflexivity|]. split; [ring|].
  pose proof (trunc_close (x / y)) as T. apply Rabs_def2 in T.
  replace (x - IZR (Ztrunc (x / y)) * y) with ((x / y - IZR (Ztrunc (x / y))) * y) by (field; lra).
  split; nra.
Qed.

Lemma longitude_real c lat lon : 0 < c ->
  exists d, longitude_data (A := ar_num) (Num (2 * c)) (Num (c / 180)) num_fmod lat (Num lon) = Ok (Some (Num d)) /\
    0 <= d <= 360 /\ same_direction (lon / (c / 180)) d.
Proof.
  intros C. destruct (fmod_bounds lon (2 * c) ltac:(lra)) as (r & n & E & X & B).
  unfold longitude_data. rewrite E. cbn. rewrite Req_bool_false by lra.
  set (q := r / (c / 180)).
  assert (Q : - 360 < q < 360).
  { unfold q. split.
    - apply Rmult_lt_reg_r with (c / 180); [lra|]. unfold Rdiv at 2. rewrite Rmult_assoc, Rinv_l by lra. lra.
    - apply Rmult_lt_reg_r with (c / 180); [lra|]. unfold Rdiv at 1. rewrite Rmult_assoc, Rinv_l by lra. lra. }
  assert (S : lon / (c / 180) = q + 360 * IZR n).
  { unfold q. rewrite X. field. lra. }
  unfold num_lt. cbn.
  destruct (Rlt_bool_spec q 0) as [N|N].
  - exists (q + 360). unfold a_le; cbn.
    rewrite !Rlt_bool_false by lra. cbn. split; [reflexivity|]. split; [lra|].
    exists (n - 1)%Z. rewrite minus_IZR. lra.
  - rewrite (Rlt_bool_false 360 q) by lra. exists q. unfold a_le; cbn.
    rewrite !Rlt_bool_false by lra. cbn. split; [reflexivity|]. split; [lra|].
    exists n. lra.
Qed.

Lemma lt_false x y : Rlt_bool x y = false -> y <= x.
Proof. destruct (Rlt_bool_spec x y); [discriminate|auto]. Qed.

Lemma longitude_checked fmod lat lon circle degree d :
  longitude_data (A := ar_double) circle degree fmod lat lon = Ok (Some d) ->
  is_finite d = true /\ 0 <= B2R d <= 360.
Proof.
  unfold longitude_data. intros H. apply Ok_inj in H.
  match type of H with (if a_le ar_double ?z ?x && a_le ar_double _ ?m then Some _ else None) = _ =>
    destruct (a_le ar_double z x) eqn:H1; [|discriminate]; destruct (a_le ar_double x m) eqn:H2; [|discriminate] end.
  cbn [andb] in H. injection H as <-.
  match goal with |- is_finite ?x = true /\ _ => set (y := x) in * end.
  unfold a_le in H1, H2. cbn [a_isnan a_lt a_of_Z ar_double] in H1, H2.
  apply andb_prop in H1. destruct H1 as [H1 L1]. apply andb_prop in H1. destruct H1 as [_ N].
  apply andb_prop in H2. destruct H2 as [_ L2]. apply negb_true_iff in N, L1, L2.
  destruct (double_of_Z_exact 0 ltac:(lia)) as [F0 V0].
  destruct (double_of_Z_exact 360 ltac:(lia)) as [F3 V3].
  rewrite flt_spec in L1, L2 by (auto using finite_not_nan).
  rewrite (fval_finite _ F0), V0 in L1. rewrite (fval_finite _ F3), V3 in L2.
  assert (B : 0 <= fval y <= 360).
  { split; now apply lt_false. }
  assert (I : 360 < inf_val 1024).
  { unfold inf_val. change (Z.max 1024 1024) with 1024%Z. apply Rlt_trans with (bpow radix2 9); [simpl; lra|apply bpow_lt; lia]. }
  assert (F : is_finite y = true) by (apply fval_finite_inv; [exact N|lra]).
  split; [exact F|]. now rewrite <- (fval_finite y F).
Qed.

(** Division by a positive double between two known quotients. *)
Lemma div_mono (x v y q : double) : is_finite v = true -> 0 < B2R q ->
  B2R x <= B2R v <= B2R y ->
  is_finite x = true -> is_finite y = true ->
  Rabs (rnd (B2R x / B2R q)) < bpow radix2 1024 -> Rabs (rnd (B2R y / B2R q)) < bpow radix2 1024 ->
  is_finite (Bdiv mode_NE v q) = true /\
  B2R (Bdiv mode_NE x q) <= B2R (Bdiv mode_NE v q) <= B2R (Bdiv mode_NE y q).
Proof.
  intros Fv Q [H1 H2] Fx Fy Bx By.
  assert (I : 0 < / B2R q) by now apply Rinv_0_lt_compat.
  assert (M1 : rnd (B2R x / B2R q) <= rnd (B2R v / B2R q)) by (apply rnd_le, Rmult_le_compat_r; lra).
  assert (M2 : rnd (B2R v / B2R q) <= rnd (B2R y / B2R q)) by (apply rnd_le, Rmult_le_compat_r; lra).
  destruct (div_round v q Fv ltac:(lra)) as [F E].
  { eapply between_bound; eauto. }
  destruct (div_round x q Fx ltac:(lra) Bx) as [_ Ex].
  destruct (div_round y q Fy ltac:(lra) By) as [_ Ey].
  rewrite E, Ex, Ey. auto.
Qed.

Lemma div_finite (x y : double) : is_finite x = true -> B2R y <> 0 -> is_finite (Bdiv mode_NE x y) = true ->
  Rabs (rnd (B2R x / B2R y)) < bpow radix2 1024.
Proof.
  intros Fx Ny F. pose proof (Bdiv_correct 53 1024 _ _ mode_NE x y Ny) as C. cbn [round_mode] in C.
  destruct (Rlt_bool_spec (Rabs (rnd (B2R x / B2R y))) (bpow radix2 1024)) as [H|H]; [exact H|].
  apply overflow_infinite in C. congruence.
Qed.

Lemma degree_value : is_finite d_degree = true /\ 0 < B2R d_degree.
Proof.
  destruct (parts d_degree) as [[m e]|] eqn:P; vm_compute in P; [|discriminate P].
  destruct (parts_value (d_degree) _ _ P) as [F V]. injection P as <- <-. split; [exact F|]. rewrite V.
  apply Rmult_lt_0_compat; [lra|apply bpow_gt_0].
Qed.

Lemma quotient_between (a b v : double) za zb : is_finite v = true -> is_finite a = true -> is_finite b = true ->
  B2R a <= B2R v <= B2R b ->
  int_value (Bdiv mode_NE a d_degree) = Some za -> int_value (Bdiv mode_NE b d_degree) = Some zb ->
  is_finite (Bdiv mode_NE v d_degree) = true /\ IZR za <= B2R (Bdiv mode_NE v d_degree) <= IZR zb.
Proof.
  intros Fv Fa Fb H Ea Eb. destruct degree_value as [Fd Pd].
  destruct (int_value_spec _ _ Ea) as [Fa' Va]. destruct (int_value_spec _ _ Eb) as [Fb' Vb].
  rewrite <- Va, <- Vb.
  apply div_mono; auto; apply div_finite; auto; lra.
Qed.

Lemma circle_value : is_finite d_circle = true /\ 0 < B2R d_circle /\ B2R (Bopp d_circle) = - B2R d_circle /\
  is_finite (Bopp d_circle) = true.
Proof.
  destruct (parts d_circle) as [[m e]|] eqn:P; vm_compute in P; [|discriminate P].
  destruct (parts_value (d_circle) _ _ P) as [F V]. injection P as <- <-. split; [exact F|]. rewrite is_finite_Bopp, B2R_Bopp.
  split; [rewrite V; apply Rmult_lt_0_compat; [lra|apply bpow_gt_0]|]. auto.
Qed.

Lemma longitude_total fmod lon : fmod_spec fmod -> is_finite lon = true ->
  exists d, longitude_double fmod lon = Ok (Some d).
Proof.
  intros [S _] F. destruct circle_value as (Fc & Pc & Vo & Fo).
  destruct (S lon d_circle F Fc Pc) as (Ff & B & _). apply Rabs_def2 in B.
  destruct (quotient_between (Bopp d_circle) d_circle (fmod lon d_circle) (-360) 360 Ff Fo Fc ltac:(lra)
    ltac:(vm_compute; reflexivity) ltac:(vm_compute; reflexivity)) as [Fq Q].
  unfold longitude_double, longitude_data. cbn [a_div a_lt a_add a_sub a_of_Z ar_double].
  set (q := Bdiv mode_NE (fmod lon d_circle) d_degree) in *.
  destruct (double_of_Z_exact 0 ltac:(lia)) as [F0 V0].
  destruct (double_of_Z_exact 360 ltac:(lia)) as [F3 V3].
  rewrite (flt_finite q _ Fq F0), (flt_finite _ q F3 Fq), V0, V3.
  assert (D : exists y, is_finite y = true /\ 0 <= B2R y <= 360 /\
    (if Rlt_bool (B2R q) 0 then Bplus mode_NE q (double_of_Z 360)
     else if Rlt_bool 360 (B2R q) then Bminus mode_NE q (double_of_Z 360) else q) = y).
  { destruct (Rlt_bool_spec (B2R q) 0) as [N|N].
    - exists (Bplus mode_NE q (double_of_Z 360)).
      assert (R : 0 <= rnd (B2R q + B2R (double_of_Z 360)) <= 360).
      { split.
        - rewrite <- (round_0 radix2 (SpecFloat.fexp 53 1024) ZnearestE). apply rnd_le. lra.
        - apply Rle_trans with (rnd (B2R (double_of_Z 360))); [apply rnd_le; lra|].
          rewrite round_generic; [rewrite V3; apply Rle_refl|apply valid_rnd_N|apply generic_format_B2R]. }
      destruct (plus_round q (double_of_Z 360) Fq F3) as [Fp Ep].
      { apply Rabs_def1; [|assert (0 < bpow radix2 1024) by apply bpow_gt_0; lra].
        apply Rle_lt_trans with 360; [lra|]. apply Rlt_trans with (bpow radix2 9); [simpl; lra|apply bpow_lt; lia]. }
      rewrite Ep. auto.
    - rewrite Rlt_bool_false by lra. exists q. split; [exact Fq|split; [lra|reflexivity]]. }
  destruct D as (y & Fy & By & Dy).
  match goal with |- context [if a_le ar_double _ ?w && _ then _ else _] =>
    change w with (if Rlt_bool (B2R q) 0 then Bplus mode_NE q (double_of_Z 360)
      else if Rlt_bool 360 (B2R q) then Bminus mode_NE q (double_of_Z 360) else q : double) end.
  rewrite Dy.
  exists y. unfold a_le. cbn [a_isnan a_lt ar_double].
  rewrite (finite_not_nan y Fy), (finite_not_nan _ F0), (finite_not_nan _ F3).
  rewrite (flt_finite y _ Fy F0), (flt_finite _ y F3 Fy), V0, V3.
  rewrite !Rlt_bool_false by lra. reflexivity.
Qed.

Lemma longitude_nonfinite fmod lon : fmod_spec fmod -> is_finite lon = false -> longitude_double fmod lon = Ok None.
Proof.
  intros [_ S] F. pose proof (S lon d_circle F) as N.
  unfold longitude_double, longitude_data. cbn [a_div a_lt a_add a_sub a_of_Z ar_double].
  destruct (fmod lon d_circle) as [?|?| |]; try discriminate.
  cbn -[double_of_Z flt]. rewrite (flt_nan_l (B754_nan : double)), (flt_nan_r _ (B754_nan : double)) by reflexivity.
  unfold a_le. cbn [a_isnan ar_double is_nan negb]. rewrite andb_false_r. reflexivity.
Qed.

(** Latitudes over the reals. *)
Lemma latitude_real eq pol low gl lat lon : 0 < pol -> pol <= eq ->
  (- (PI / 2) <= lat <= PI / 2 ->
     exists d, latitude_data (libm_num PI low) (num_graphic eq pol) gl (Num lat) lon = Ok (Some (Num d)) /\
       -90 <= d <= 90 /\ d = (if gl then graphic_latitude eq pol lat else lat) * 180 / PI) /\
  (~ (- (PI / 2) <= lat <= PI / 2) -> latitude_data (libm_num PI low) (num_graphic eq pol) gl (Num lat) lon = Ok None).
Proof.
  intros P E. pose proof PI_RGT_0 as Pi. unfold latitude_data. cbn. unfold num_lt. split.
  - intros B. rewrite !Rlt_bool_false by lra. cbn.
    set (x := if gl then graphic_latitude eq pol lat else lat).
    assert (X : - (PI / 2) <= x <= PI / 2).
    { unfold x. destruct gl; [apply ktan_bound; exact B|exact B]. }
    exists (x * 180 / PI). repeat split.
    + destruct gl; cbn; rewrite Req_bool_false by lra; do 3 f_equal; unfold x; field; lra.
    + apply Rmult_le_reg_r with PI; [lra|]. replace (x * 180 / PI * PI) with (x * 180) by (field; lra). lra.
    + apply Rmult_le_reg_r with PI; [lra|]. replace (x * 180 / PI * PI) with (x * 180) by (field; lra). lra.
  - intros N. destruct (Rlt_bool_spec lat (0 - PI / 2)) as [H|H]; [reflexivity|].
    destruct (Rlt_bool_spec (PI / 2) lat) as [H'|H']; [reflexivity|]. exfalso. apply N. lra.
Qed.

(** Latitudes in doubles. *)
Lemma latitude_double_range (L : libm ar_double) (graphic : double -> double) gl (lat lon : double) :
  l_pi2 L = d_pi2 -> l_degree L = d_degree -> is_nan lat = false ->
  (gl = true -> is_finite lat = true -> is_finite (graphic lat) = true /\ Rabs (B2R (graphic lat)) <= B2R d_pi2) ->
  (is_finite lat = true /\ Rabs (B2R lat) <= B2R d_pi2 ->
     exists d, latitude_data L graphic gl lat lon = Ok (Some d) /\ is_finite d = true /\ -90 <= B2R d <= 90) /\
  (~ (is_finite lat = true /\ Rabs (B2R lat) <= B2R d_pi2) -> latitude_data L graphic gl lat lon = Ok None).
Proof.
  intros P D N G. unfold latitude_data. rewrite P, D. cbn [a_lt a_sub a_of_Z a_div ar_double].
  assert (V : is_finite d_pi2 = true /\ is_finite (Bminus mode_NE (double_of_Z 0) d_pi2) = true /\
    B2R (Bminus mode_NE (double_of_Z 0) d_pi2) = - B2R d_pi2).
  { destruct (parts d_pi2) as [[m e]|] eqn:Q; vm_compute in Q; [|discriminate Q].
    destruct (parts_value (d_pi2) _ _ Q) as [F V]. injection Q as <- <-.
    destruct (parts (Bminus mode_NE (double_of_Z 0) d_pi2)) as [[m e]|] eqn:Q; vm_compute in Q; [|discriminate Q].
    destruct (parts_value (Bminus mode_NE (double_of_Z 0) d_pi2) _ _ Q) as [F' V']. injection Q as <- <-.
    split; [exact F|split; [exact F'|]]. rewrite V, V'. lra. }
  destruct V as (Fp & Fm & Vm).
  assert (Q : forall x, is_finite x = true -> Rabs (B2R x) <= B2R d_pi2 ->
    is_finite (Bdiv mode_NE x d_degree) = true /\ -90 <= B2R (Bdiv mode_NE x d_degree) <= 90).
  { intros x Fx Bx. apply Rabs_le_inv in Bx.
    apply (quotient_between (Bminus mode_NE (double_of_Z 0) d_pi2) d_pi2 x (-90) 90); auto.
    lra. }
  split.
  - intros [F B]. pose proof (Rabs_le_inv _ _ B) as B'.
    rewrite !flt_finite by assumption. rewrite Vm, !Rlt_bool_false by lra. cbn [orb].
    eexists. split; [reflexivity|]. destruct gl.
    + destruct (G eq_refl F). now apply Q.
    + now apply Q.
  - intros H. destruct (flt lat (Bminus mode_NE (double_of_Z 0) d_pi2) || flt d_pi2 lat) eqn:T; [reflexivity|].
    exfalso. apply H. apply orb_false_elim in T. destruct T as [T1 T2].
    rewrite flt_spec in T1, T2 by (auto using finite_not_nan).
    rewrite (fval_finite _ Fm), Vm in T1. rewrite (fval_finite _ Fp) in T2.
    assert (B : - B2R d_pi2 <= fval lat <= B2R d_pi2).
    { split; now apply lt_false. }
    assert (B2R d_pi2 < inf_val 1024).
    { pose proof (fval_bound d_pi2 Fp). rewrite fval_finite in H0 by exact Fp. lra. }
    assert (F : is_finite lat = true) by (apply fval_finite_inv; [exact N|lra]).
    split; [exact F|]. rewrite <- (fval_finite lat F). apply Rabs_le. lra.
Qed.

Lemma latitude_nan (L : libm ar_double) graphic lon :
  exists d, latitude_data L graphic false (B754_nan : double) lon = Ok (Some d) /\ is_nan d = true.
Proof.
  unfold latitude_data. cbn [a_lt a_div ar_double]. rewrite (flt_nan_l (B754_nan : double)), (flt_nan_r _ (B754_nan : double)) by reflexivity.
  eexists. split; [reflexivity|]. destruct (l_degree L); reflexivity.
Qed.

(** ** C88 *)
Lemma checked_ok c : -1 <= c <= 1 -> checked_cosine (A := ar_num) (Num c) = Ok (Some (Num c)).
Proof.
  intros H. unfold checked_cosine, a_le. cbn. unfold num_lt. rewrite !Rlt_bool_false by lra. reflexivity.
Qed.

Lemma cosine_planes eq pol low lat lon : 0 < pol -> pol <= eq -> - (PI / 2) <= lat <= PI / 2 ->
  let deg := fun x => x * (PI / 180) in
  let p := spherical (centric_radius eq pol lat) lat lon in
  (forall so_lat so_lon range,
     let c := angle_cosine (gradient eq pol p) (minus3 (spherical range (deg so_lat) (deg so_lon)) p) in
     mu_data (libm_num PI low) (num_mu eq pol) (Num so_lat) (Num so_lon) (Num range) (Num lat) (Num lon) =
       Ok (Some (Num c)) /\ -1 <= c <= 1) /\
  (forall ss_lat ss_lon,
     let c := angle_cosine (gradient eq pol p) (spherical 1 (deg ss_lat) (deg ss_lon)) in
     mu0_data (libm_num PI low) (num_mu0 eq pol) (Num ss_lat) (Num ss_lon) (Num lat) (Num lon) =
       Ok (Some (Num c)) /\ -1 <= c <= 1) /\
  (forall so_lat so_lon ss_lat ss_lon range,
     let c := angle_cosine (spherical 1 (deg ss_lat) (deg ss_lon)) (minus3 (spherical range (deg so_lat) (deg so_lon)) p) in
     cos_phase_data (libm_num PI low) (num_cos_phase eq pol) (Num so_lat) (Num so_lon) (Num ss_lat) (Num ss_lon)
       (Num range) (Num lat) (Num lon) = Ok (Some (Num c)) /\ -1 <= c <= 1).
Proof.
  intros P E B deg p. split; [|split]; intros; (split; [|apply angle_cosine_bound]).
  - unfold mu_data. cbn [a_mul ar_num num2 libm_num l_degree]. unfold num_mu.
    rewrite (mu_is_cosine eq pol P E) by exact B. apply checked_ok, angle_cosine_bound.
  - unfold mu0_data. cbn [a_mul ar_num num2 libm_num l_degree]. unfold num_mu0.
    rewrite (mu0_is_cosine eq pol P E) by exact B. apply checked_ok, angle_cosine_bound.
  - unfold cos_phase_data. cbn [a_mul ar_num num2 libm_num l_degree]. unfold num_cos_phase.
    rewrite (cos_phase_is_cosine eq pol). apply checked_ok, angle_cosine_bound.
Qed.

(** ** C60 *)
Definition orelse {T} (a b : option T) : option T := match a with Some _ => a | None => b end.

Lemma factory_minimum_eq (ex : extrema (ct F64)) (d : double) :
  factory_minimum ex d = match e_min ex with Some _ => Ok ex | None =>
    if is_nan d then Throw invalid_argument else Ok (Extrema (T := ct F64) (Some d) (e_max ex)) end.
Proof.
  unfold factory_minimum, ex_set_min, validate_minimum. destruct (e_min ex); [reflexivity|].
  destruct (is_nan d); reflexivity.
Qed.

Lemma factory_maximum_eq (ex : extrema (ct F64)) (d : double) :
  factory_maximum ex d = match e_max ex with Some _ => Ok ex | None =>
    if is_nan d then Throw invalid_argument else Ok (Extrema (T := ct F64) (e_min ex) (Some d)) end.
Proof.
  unfold factory_maximum, ex_set_max, validate_maximum. destruct (e_max ex); [reflexivity|].
  destruct (is_nan d); reflexivity.
Qed.

Lemma after_calls_spec calls : forall ex : extrema (ct F64),
  e_min (after_calls calls ex) = orelse (e_min ex) (first_setting true calls) /\
  e_max (after_calls calls ex) = orelse (e_max ex) (first_setting false calls).
Proof.
  induction calls as [|[b d] calls IH]; intros ex.
  - destruct ex as [[|] [|]]; split; reflexivity.
  - cbn [after_calls first_setting].
    match goal with |- e_min (after_calls calls ?e) = _ /\ _ => destruct (IH e) as [I1 I2]; rewrite I1, I2 end.
    clear I1 I2. rewrite factory_minimum_eq, factory_maximum_eq.
    destruct b, ex as [mn mx]; cbn [e_min e_max Bool.eqb andb].
    + destruct mn as [m|]; [cbn [e_min e_max]; auto|]. destruct (is_nan d); cbn [e_min e_max negb orelse]; auto.
    + destruct mx as [m|]; [cbn [e_min e_max]; auto|]. destruct (is_nan d); cbn [e_min e_max negb orelse]; auto.
Qed.

Lemma nan_setting (ex : extrema (ct F64)) (d : double) : is_nan d = true ->
  (e_min ex = None -> factory_minimum ex d = Throw invalid_argument) /\
  (e_max ex = None -> factory_maximum ex d = Throw invalid_argument).
Proof.
  intros N. unfold factory_minimum, factory_maximum, ex_set_min, ex_set_max, validate_minimum, validate_maximum.
  rewrite N. split; intros ->; reflexivity.
Qed.

Lemma make_keeps L t p ex s o ex' : make_virtual L t p ex = Ok (s, o, ex') ->
  (forall m, e_min ex = Some m -> e_min ex' = Some m) /\ (forall m, e_max ex = Some m -> e_max ex' = Some m) /\
  (e_min ex = None -> e_min ex' = Some (Bplus mode_NE (Bmult mode_NE (double_of_Z (plane_low p)) s) o)) /\
  (e_max ex = None -> e_max ex' = Some (Bplus mode_NE (Bmult mode_NE (double_of_Z (plane_high p)) s) o)).
Proof.
  unfold make_virtual. destruct (scale_and_offset _ _ _ _) as [[[s' o']|]| |]; try discriminate.
  cbn [bind].
  set (a := Bplus mode_NE (Bmult mode_NE (double_of_Z (plane_low p)) s') o').
  set (b := Bplus mode_NE (Bmult mode_NE (double_of_Z (plane_high p)) s') o').
  destruct (factory_minimum ex a) as [ex1| |] eqn:E1; try discriminate. cbn [bind].
  destruct (factory_maximum ex1 b) as [ex2| |] eqn:E2; try discriminate. cbn [bind].
  intros H. apply Ok_inj in H. injection H as <- <- <-.
  unfold factory_minimum in E1. unfold factory_maximum in E2.
  assert (M1 : e_max ex1 = e_max ex /\ e_min ex1 = orelse (e_min ex) (Some a)).
  { destruct (e_min ex) as [m|] eqn:Em; [apply Ok_inj in E1; subst ex1; rewrite Em; auto|].
    unfold ex_set_min, validate_minimum in E1. destruct (is_nan a); [discriminate|].
    cbn in E1. apply Ok_inj in E1. subst ex1. auto. }
  assert (M2 : e_min ex2 = e_min ex1 /\ e_max ex2 = orelse (e_max ex1) (Some b)).
  { destruct (e_max ex1) as [m|] eqn:Em; [apply Ok_inj in E2; subst ex2; rewrite Em; auto|].
    unfold ex_set_max, validate_maximum in E2. destruct (is_nan b); [discriminate|].
    cbn in E2. apply Ok_inj in E2. subst ex2. auto. }
  destruct M1 as [M1 M1'], M2 as [M2 M2']. rewrite M2, M2', M1, M1'.
  repeat split; intros; match goal with H : _ = _ |- _ => rewrite H end; reflexivity.
Qed.

Lemma settings (calls : list setter_call) :
  e_min (after_calls calls ex_empty) = first_setting true calls /\
  e_max (after_calls calls ex_empty) = first_setting false calls.
Proof. exact (after_calls_spec calls ex_empty). Qed.

Lemma longitude_double_range fmod : fmod_spec fmod -> forall lon,
  (is_finite lon = true -> exists d, longitude_double fmod lon = Ok (Some d) /\ is_finite d = true /\ 0 <= B2R d <= 360) /\
  (is_finite lon = false -> longitude_double fmod lon = Ok None).
Proof.
  intros S lon. split; [|apply longitude_nonfinite; exact S].
  intros F. destruct (longitude_total fmod lon S F) as [d E]. exists d. split; [exact E|].
  exact (longitude_checked fmod (double_of_Z 0) lon d_circle d_degree d E).
Qed.

(** ** Floating point maps *)
Lemma times_one_plus_zero (v : double) : is_finite v = true ->
  let d := Bplus mode_NE (Bmult mode_NE v (double_of_Z 1)) (double_of_Z 0) in is_finite d = true /\ B2R d = B2R v.
Proof.
  intros F.
  destruct (double_of_Z_exact 1 ltac:(lia)) as [F1 E1]. destruct (double_of_Z_exact 0 ltac:(lia)) as [F0 E0].
  assert (G : round radix2 (SpecFloat.fexp 53 1024) (round_mode mode_NE) (B2R v) = B2R v).
  { apply round_generic; [apply valid_rnd_round_mode|]. apply generic_format_B2R. }
  pose proof (abs_B2R_lt_emax _ _ v) as B.
  pose proof (Bmult_correct 53 1024 prec53 emax53 mode_NE v (double_of_Z 1)) as M.
  rewrite E1, Rmult_1_r, G, Rlt_bool_true in M by exact B. destruct M as (M & FM & _).
  assert (FM' : is_finite (Bmult mode_NE v (double_of_Z 1)) = true) by (rewrite FM, F, F1; reflexivity).
  pose proof (Bplus_correct 53 1024 prec53 emax53 mode_NE (Bmult mode_NE v (double_of_Z 1)) (double_of_Z 0) FM' F0) as P.
  rewrite M, E0, Rplus_0_r, G, Rlt_bool_true in P by exact B. destruct P as (P & FP & _). auto.
Qed.
Lemma floating_unscaled L t min max : t = F32 \/ t = F64 ->
  exists s o, scale_and_offset L t min max = Ok (Some (s, o)) /\
    forall physical lat lon v, physical lat lon = Ok (Some v) -> is_finite v = true ->
    exists d, read_virtual (A := ar_double) s o physical lat lon = Ok (Some d) /\ is_finite d = true /\ B2R d = B2R v.
Proof.
  intros T. exists (double_of_Z 1), (double_of_Z 0). split; [now destruct T as [->| ->]|].
  intros physical lat lon v E F. unfold read_virtual. rewrite E. eexists. split; [reflexivity|].
  exact (times_one_plus_zero v F).
Qed.
