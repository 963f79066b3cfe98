(** Proofs for C122: a run that fails an assertion. *)
From Coq Require Import List ZArith Reals Bool String Lra Lia Psatz.
From Flocq Require Import Core BinarySingleNaN.
From Verif Require Import Base BaseFacts Flt FltFacts Num LinAlg_Model Maths_Model Spheroid_Model Spheroid_Spec Spheroid_Proofs Extrema_Model Extrema_Spec MakeMap_Model MakeMap_Spec MakeMap_Proofs
  Proj_Model Proj_Spec Proj_Proofs Virtual_Model Virtual_Spec Virtual_Proofs VirtualPlane_Proofs Params_Model
  Fits_Model Fits_Spec Command_Model Command_Spec Command_Proofs Input_Model Entry_Model Entry_Proofs Parse_Model Parse_Spec Parse_Proofs
  Run_Model Run_Spec RunAngle_Proofs RunScale_Proofs Run_Proofs RunPlane_Proofs RunCase_Proofs PiBound_Proofs Ortho_Spec RunOrtho_Spec OrthoCase_Proofs
  RunOrtho_Proofs Body_Model Body_Spec BodyDouble_Proofs BodyCase_Proofs RunBody_Proofs.
Import ListNotations.
Open Scope R_scope.

#[local] Existing Instance prec53.
#[local] Existing Instance emax53.
#[local] Instance valid53_assert : Valid_exp (SpecFloat.fexp 53 1024) := fexp_correct 53 1024 eq_refl.
Local Notation fexp := (SpecFloat.fexp 53 1024).
Local Notation rnd := (round radix2 fexp ZnearestE).
Local Ltac abs H := apply Rabs_le_inv in H.

(** ** What rounds to a given double *)
Lemma near_rounds m e r : (2 ^ 52 < m < 2 ^ 53)%Z -> (-1074 <= e <= 900)%Z ->
  Rabs (r - IZR m * bpow radix2 e) < bpow radix2 e / 2 -> rnd r = IZR m * bpow radix2 e.
Proof.
  intros Hm He H. set (x := IZR m * bpow radix2 e) in *. set (h := bpow radix2 e) in *. assert (h0 : 0 < h) by apply bpow_gt_0.
  assert (M1 : IZR (2 ^ 52) < IZR m) by (apply IZR_lt; lia). assert (M2 : IZR m < IZR (2 ^ 53)) by (apply IZR_lt; lia).
  assert (B1 : bpow radix2 (52 + e) = IZR (2 ^ 52) * h) by (rewrite bpow_plus; reflexivity).
  assert (B2 : bpow radix2 (53 + e) = IZR (2 ^ 53) * h) by (rewrite bpow_plus; reflexivity).
  assert (X1 : bpow radix2 (52 + e) < x) by (rewrite B1; apply Rmult_lt_compat_r; assumption).
  assert (X2 : x < bpow radix2 (53 + e)) by (rewrite B2; apply Rmult_lt_compat_r; assumption).
  assert (X0 : 0 < x) by (eapply Rlt_trans; [apply bpow_gt_0|exact X1]).
  assert (Mg : mag radix2 x = (53 + e)%Z :> Z).
  { apply mag_unique. rewrite Rabs_pos_eq by lra. replace (53 + e - 1)%Z with (52 + e)%Z by lia. lra. }
  assert (Fe : fexp (53 + e) = e) by (unfold SpecFloat.fexp, SpecFloat.emin; lia).
  assert (Cx : cexp radix2 fexp x = e) by (unfold cexp; rewrite Mg; exact Fe).
  assert (G : generic_format radix2 fexp x).
  { apply generic_format_F2R' with (f := Float radix2 m e); [reflexivity|]. intros _. cbn [Fexp]. rewrite Cx. lia. }
  assert (U : ulp radix2 fexp x = h) by (rewrite ulp_neq_0 by lra; rewrite Cx; reflexivity).
  assert (Sc : succ radix2 fexp x = x + h) by (rewrite succ_eq_pos, U by lra; reflexivity).
  assert (Pd : pred radix2 fexp x = x - h).
  { rewrite pred_eq_pos by lra. unfold pred_pos. rewrite Mg. replace (53 + e - 1)%Z with (52 + e)%Z by lia. rewrite Req_bool_false by lra. now rewrite U. }
  apply Rabs_def2 in H. apply Rle_antisym.
  - apply round_N_le_midp; auto with typeclass_instances. rewrite Sc. lra.
  - apply round_N_ge_midp; auto with typeclass_instances. rewrite Pd. lra.
Qed.
Lemma rounds_to (d : double) m e r : parts d = Some (m, e) -> (2 ^ 52 < m < 2 ^ 53)%Z -> (-1074 <= e <= 900)%Z ->
  Rabs r <= 1e200 -> Rabs (r - IZR m * bpow radix2 e) < bpow radix2 e / 2 -> rounded r = d.
Proof.
  intros P Hm He Hr H. destruct (parts_value d m e P) as [F V]. destruct (rounded_value r Hr) as [F' V'].
  rewrite (near_rounds m e r Hm He H), <- V in V'.
  assert (N : B2R d <> 0).
  { rewrite V. apply Rmult_integral_contrapositive_currified; [apply IZR_neq; lia|]. apply Rgt_not_eq, bpow_gt_0. }
  apply B2R_inj; [| |exact V'].
  - destruct (rounded r); try discriminate F'; [exfalso; apply N; rewrite <- V'; reflexivity|reflexivity].
  - destruct d; try discriminate F; [exfalso; apply N; reflexivity|reflexivity].
Qed.

(** ** Eight degrees *)
Definition eight : double := Bmult mode_NE (double_of_Z 8) d_degree.
Definition of_parts (m e : Z) : double := binary_normalize 53 1024 prec53 emax53 mode_NE m e false.
Definition sin_8 : double := of_parts 5014239404989977 (-55).
Definition cos_8 : double := of_parts 8919541810762874 (-53).
Definition tan_8 : double := of_parts 5063517206368229 (-55).

Lemma fact_step n : INR (fact (S n)) = IZR (Z.of_nat (S n)) * INR (fact n).
Proof. rewrite fact_simpl, mult_INR, <- INR_IZR_INZ. reflexivity. Qed.
Lemma pow_55 : bpow radix2 (-55) = / 36028797018963968. Proof. reflexivity. Qed.
Lemma pow_53 : bpow radix2 (-53) = / 9007199254740992. Proof. reflexivity. Qed.
Lemma eight_value : B2R eight = 5030569068109113 / 36028797018963968.
Proof.
  destruct (parts eight) as [[m e]|] eqn:P; vm_compute in P; [|discriminate P].
  destruct (parts_value eight _ _ P) as [_ V]. injection P as <- <-. rewrite V, pow_55. reflexivity.
Qed.
Lemma sine_8 : Rabs (sin (B2R eight) - 5014239404989977 * / 36028797018963968) < / 36028797018963968 * 0.142.
Proof.
  rewrite eight_value. pose proof PI_RGT_0 as P0. pose proof pi_between as PB.
  destruct (sin_bound (5030569068109113 / 36028797018963968) 3 ltac:(lra) ltac:(lra)) as [A B].
  unfold sin_approx, sin_term in A, B. cbn [sum_f_R0 Nat.mul Nat.add] in A, B. repeat rewrite fact_step in A. repeat rewrite fact_step in B.
  cbn [Z.of_nat Pos.of_succ_nat Pos.succ fact INR] in A, B.
  apply Rabs_def1; lra.
Qed.
Lemma cosine_8 : Rabs (cos (B2R eight) - 8919541810762874 * / 9007199254740992) < / 9007199254740992 * 0.42.
Proof.
  rewrite eight_value. pose proof PI_RGT_0 as P0. pose proof pi_between as PB.
  destruct (cos_bound (5030569068109113 / 36028797018963968) 3 ltac:(lra) ltac:(lra)) as [A B].
  unfold cos_approx, cos_term in A, B. cbn [sum_f_R0 Nat.mul Nat.add] in A, B. repeat rewrite fact_step in A. repeat rewrite fact_step in B.
  cbn [Z.of_nat Pos.of_succ_nat Pos.succ fact INR] in A, B.
  apply Rabs_def1; lra.
Qed.
Lemma tangent_8 : Rabs (tan (B2R eight) - 5063517206368229 * / 36028797018963968) < / 36028797018963968 * 0.4.
Proof.
  pose proof PI_RGT_0 as P0. pose proof pi_between as PB. rewrite eight_value.
  destruct (sin_bound (5030569068109113 / 36028797018963968) 3 ltac:(lra) ltac:(lra)) as [A B].
  destruct (cos_bound (5030569068109113 / 36028797018963968) 3 ltac:(lra) ltac:(lra)) as [C D].
  unfold sin_approx, sin_term, cos_approx, cos_term in A, B, C, D. cbn [sum_f_R0 Nat.mul Nat.add] in A, B, C, D.
  repeat rewrite fact_step in A. repeat rewrite fact_step in B. repeat rewrite fact_step in C. repeat rewrite fact_step in D.
  cbn [Z.of_nat Pos.of_succ_nat Pos.succ fact INR] in A, B, C, D.
  unfold tan. set (s := sin _) in *. set (c := cos _) in *. assert (c0 : 0.99 < c) by lra.
  apply Rabs_def1; apply Rmult_lt_reg_r with c; try lra; rewrite Rmult_minus_distr_r; unfold Rdiv; rewrite Rmult_assoc, Rinv_l, Rmult_1_r by lra; lra.
Qed.
Lemma atan_less p q : Rabs (atan p - atan q) <= Rabs (p - q).
Proof.
  assert (G : forall p q, p < q -> Rabs (atan p - atan q) <= Rabs (p - q)).
  { clear. intros p q H. destruct (MVT_cor2 atan (fun c => / (1 + c ^ 2)) p q H) as (c & E & _).
    { intros c _. exact (derivable_pt_lim_atan c). }
    rewrite Rabs_minus_sym, (Rabs_minus_sym p), E, Rabs_mult. assert (0 <= c ^ 2) by apply pow2_ge_0.
    assert (0 < / (1 + c ^ 2) <= 1). { split; [apply Rinv_0_lt_compat; lra|]. rewrite <- Rinv_1. apply Rinv_le; lra. }
    rewrite (Rabs_pos_eq (/ _)) by lra. rewrite <- (Rmult_1_l (Rabs (q - p))) at 2. apply Rmult_le_compat_r; [apply Rabs_pos|lra]. }
  destruct (Rtotal_order p q) as [H|[->|H]]; [now apply G|rewrite !Rminus_eq_0; lra|].
  rewrite Rabs_minus_sym, (Rabs_minus_sym p). now apply G.
Qed.

Lemma lib_sin : dsin real_library eight = sin_8.
Proof.
  apply (rounds_to sin_8 5014239404989977 (-55)); [vm_compute; reflexivity|lia|lia|pose proof (SIN_bound (B2R eight)); apply Rabs_le; lra|].
  rewrite pow_55. pose proof sine_8. lra.
Qed.
Lemma lib_cos : dcos real_library eight = cos_8.
Proof.
  apply (rounds_to cos_8 8919541810762874 (-53)); [vm_compute; reflexivity|lia|lia|pose proof (COS_bound (B2R eight)); apply Rabs_le; lra|].
  rewrite pow_53. pose proof cosine_8. lra.
Qed.
Lemma lib_tan : dtan real_library eight = tan_8.
Proof.
  apply (rounds_to tan_8 5063517206368229 (-55)); [vm_compute; reflexivity|lia|lia| |].
  - pose proof tangent_8 as H. apply Rabs_def2 in H. apply Rabs_le. lra.
  - rewrite pow_55. pose proof tangent_8. lra.
Qed.
Lemma lib_atan : real_arctan tan_8 = eight.
Proof.
  assert (V : B2R tan_8 = 5063517206368229 * / 36028797018963968).
  { destruct (parts tan_8) as [[m e]|] eqn:P; vm_compute in P; [|discriminate P].
    destruct (parts_value tan_8 _ _ P) as [_ V]. injection P as <- <-. rewrite V, pow_55. reflexivity. }
  pose proof pi_between as PB. pose proof eight_value as EV.
  apply (rounds_to eight 5030569068109113 (-55)); [vm_compute; reflexivity|lia|lia|pose proof (atan_bound (B2R tan_8)); apply Rabs_le; lra|].
  pose proof (atan_less (B2R tan_8) (tan (B2R eight))) as A. rewrite atan_tan in A by lra. pose proof tangent_8 as T.
  rewrite <- V, Rabs_minus_sym in T. rewrite pow_55. rewrite EV in A at 1. unfold Rdiv in A. lra.
Qed.
Lemma lib_pow (x : double) : B2SF x = B2SF (double_of_Z 1) -> dpow real_library x (double_of_Z 2) = double_of_Z 1.
Proof.
  intros H. apply B2SF_inj in H. subst x. destruct (double_of_Z_exact 1 ltac:(lia)) as [F E].
  unfold dpow. cbn [l_pow real_library]. rewrite E. replace (1 ^ 2) with 1 by ring.
  destruct (rounded_value 1) as [F' V']; [rewrite Rabs_R1; lra|].
  assert (G : generic_format radix2 fexp 1) by (rewrite <- E; apply generic_format_B2R).
  rewrite round_generic in V' by (auto with typeclass_instances).
  apply B2R_inj; [| |rewrite V', E; reflexivity].
  - destruct (rounded 1); try discriminate F'; [cbn in V'; lra|reflexivity].
  - destruct (double_of_Z 1); try discriminate F; [cbn in E; lra|reflexivity].
Qed.
Lemma lib_cos_0 (x : double) : is_finite x = true -> B2R x = 0 -> dcos real_library x = double_of_Z 1.
Proof.
  intros Fx H. destruct (double_of_Z_exact 1 ltac:(lia)) as [F E].
  unfold dcos. cbn [l_cos real_library]. rewrite H, cos_0.
  destruct (rounded_value 1) as [F' V']; [rewrite Rabs_R1; lra|].
  assert (G : generic_format radix2 fexp 1) by (rewrite <- E; apply generic_format_B2R).
  rewrite round_generic in V' by (auto with typeclass_instances).
  apply B2R_inj; [| |rewrite V', E; reflexivity].
  - destruct (rounded 1); try discriminate F'; [cbn in V'; lra|reflexivity].
  - destruct (double_of_Z 1); try discriminate F; [cbn in E; lra|reflexivity].
Qed.

(** Straight below the sun at 8 degrees north of a sphere the cosine is above 1. *)
Lemma above_one (eq lo : double) : eq = double_of_Z 6378 -> is_finite lo = true ->
  double_mu0 real_library real_arctan eq eq eight lo eight lo = of_parts 4503599627370497 (-52).
Proof.
  intros -> Fl. unfold double_mu0, double_graphic. rewrite lib_pow, lib_tan by (vm_compute; reflexivity).
  replace (Bmult mode_NE (double_of_Z 1) tan_8) with tan_8 by (apply B2SF_inj; vm_compute; reflexivity).
  rewrite lib_atan, lib_sin, lib_cos.
  assert (Z : is_finite (Bminus mode_NE lo lo) = true /\ B2R (Bminus mode_NE lo lo) = 0).
  { pose proof (Bminus_correct 53 1024 prec53 emax53 mode_NE lo lo Fl Fl) as C. rewrite Rminus_eq_0, round_0 in C by (auto with typeclass_instances).
    rewrite Rabs_R0, Rlt_bool_true in C by apply bpow_gt_0. destruct C as (V & F & _). now split. }
  rewrite lib_cos_0 by apply Z. apply B2SF_inj. vm_compute. reflexivity.
Qed.
Lemma fails (eq lo : double) : eq = double_of_Z 6378 -> is_finite lo = true ->
  checked_cosine (A := ar_double) (double_mu0 real_library real_arctan eq eq eight lo eight lo) = UB ub_assert.
Proof. intros H F. rewrite above_one by assumption. unfold checked_cosine. vm_compute. reflexivity. Qed.

(** ** A map that fails the assertion *)
Definition sun_at (hi lat : Z) : map_entry :=
  MapEntry "map.fits" None None [] [] "Ball" (given_radii (A := ar_double) (double_of_Z 6378) (double_of_Z 6378)) true
    None None (Some 16%Z) None None
    (T_simple_c (Some (None, None, Some (lo_hi_lat (LatEntry (double_of_Z 0) no_hemisphere Centric) (LatEntry (double_of_Z hi) no_hemisphere Centric)), None)))
    None (digit 2) (digit 1)
    (PlaneEntry None no_range (T_mu0 None (lat_first (LatEntry (double_of_Z lat) no_hemisphere Centric) (LonEntry (double_of_Z 270) West)))) [].
Definition sunlit : map_entry := sun_at 16 8.
(** How the program ends. *)
Definition ends (X : outside) (e : map_entry) : option (outcome unit) :=
  match commands_of X (texts None [(e, [])]) with
  | Ok (Some [m]) =>
      match command_of X 0 m with
      | Some c => Some (bind (snd (execute (fun _ => 0%Z) (fun _ _ => None) true c (World old_file 0))) (fun _ => Ok tt))
      | None => None
      end
  | _ => None
  end.

Definition sf_eqb (a b : SpecFloat.spec_float) : bool :=
  match a, b with
  | SpecFloat.S754_finite s m e, SpecFloat.S754_finite s' m' e' => Bool.eqb s s' && Pos.eqb m m' && Z.eqb e e'
  | _, _ => false
  end.
Lemma sf_same (x y : double) : sf_eqb (B2SF x) (B2SF y) = true -> x = y.
Proof.
  intros H. apply B2SF_inj. destruct (B2SF x), (B2SF y); try discriminate H. cbn in H.
  apply andb_true_iff in H. destruct H as [H H3]. apply andb_true_iff in H. destruct H as [H1 H2].
  apply Bool.eqb_prop in H1. apply Pos.eqb_eq in H2. apply Z.eqb_eq in H3. subst. reflexivity.
Qed.
Definition sf_finite (x y : double) : sf_eqb (B2SF x) (B2SF y) = true -> is_finite x = true.
Proof. destruct x; try reflexivity; intros H; discriminate H. Qed.

Definition cell_0 (pro : bool) (p : simple_cyl ar_double) (samples lines : Z) : double * double :=
  (a_add ar_double (a_mul ar_double (a_add ar_double (a_of_Z ar_double 0) (half (A := ar_double))) (a_div ar_double (a_sub ar_double (sc_hi_lat p) (sc_lo_lat p)) (a_of_Z ar_double lines))) (sc_lo_lat p),
   sc_longitude pro p 0 (a_div ar_double (a_sub ar_double (sc_hi_lon p) (sc_lo_lon p)) (a_of_Z ar_double samples))).
Definition suits (m : map_command) : bool :=
  match mc_projection m, mc_images m with
  | SimpleCylindrical b lo hi lo' hi' false, [f] =>
      match simple_cyl_new (A := ar_double) real_library (x_graphic real_program b) lo hi lo' hi' false, if_source f, if_limits f with
      | Ok p, F_mu0 b' lat lon, Extrema None None =>
          negb (sc_graphic p) && Z.eqb (mc_samples m) 2 && Z.eqb (mc_lines m) 1 &&
          sf_eqb (B2SF (fst (cell_0 (prograde b) p 2 1))) (B2SF eight) &&
          sf_eqb (B2SF (snd (cell_0 (prograde b) p 2 1))) (B2SF (Bmult mode_NE (lon : double) d_degree)) &&
          sf_eqb (B2SF (Bmult mode_NE (lat : double) d_degree)) (B2SF eight) &&
          sf_eqb (B2SF (Spheroid_Model.eq_rad (b' : body) : double)) (B2SF (double_of_Z 6378)) &&
          sf_eqb (B2SF (Spheroid_Model.pol_rad (b' : body) : double)) (B2SF (double_of_Z 6378)) &&
          sf_eqb (B2SF (lat : double)) (B2SF (double_of_Z 8)) && sf_eqb (B2SF (lon : double)) (B2SF (double_of_Z 270))
      | _, _, _ => false
      end
  | _, _ => false
  end.
Definition the_command : option map_command :=
  match commands_of real_program (texts None [(sunlit, [])]) with
  | Ok (Some [m]) => Some m
  | _ => None
  end.
Lemma suits_case : match the_command with Some m => suits m && match command_of real_program 0 m with Some _ => true | None => false end | None => false end = true.
Proof. vm_compute. reflexivity. Qed.

Theorem assertion_fails : exists m c f, ieee real_program /\ good_library (x_libm real_program) real_arctan /\ spheroids real_program real_arctan /\
  accurate (x_scale real_program) /\ commands_of real_program (texts None [(sunlit, [])]) = Ok (Some [m]) /\ fits_size m /\ mc_images m = [f] /\
  (exists b lat lon, if_source f = F_mu0 b lat lon /\ size_of b /\ angle lat 90 /\ angle lon 360) /\
  command_of real_program 0 m = Some c /\
  forall status left_over removable w w' r, (forall n, status n = 0%Z) -> execute status left_over removable c w <> (w', Ok r).
Proof.
  pose proof suits_case as S. unfold the_command in S.
  destruct (commands_of real_program (texts None [(sunlit, [])])) as [o| |] eqn:Cm; try discriminate S.
  destruct o as [l|]; [|discriminate S]. destruct l as [|m l]; [discriminate S|]. destruct l; [|discriminate S].
  apply andb_true_iff in S. destruct S as [S C]. destruct (command_of real_program 0 m) as [c|] eqn:Co; [clear C|discriminate C].
  unfold suits in S. destruct (mc_projection m) as [|? ? ? ? ? ?|? ? ?|b lo hi lo' hi' g] eqn:Pm; try discriminate S. destruct g; [discriminate S|].
  destruct (mc_images m) as [|f l] eqn:Im; [discriminate S|]. destruct l; [|discriminate S].
  destruct (simple_cyl_new real_library (x_graphic real_program b) lo hi lo' hi' false) as [p| |] eqn:Np; try discriminate S.
  destruct (if_source f) as [| | |b' lat lon| | |] eqn:Sf; try discriminate S.
  destruct (if_limits f) as [mn mx] eqn:Lf. destruct mn; [discriminate S|]. destruct mx; [discriminate S|].
  apply andb_true_iff in S. destruct S as [S Lo]. apply andb_true_iff in S. destruct S as [S La]. apply sf_same in Lo, La.
  repeat (apply andb_true_iff in S; let H := fresh "T" in destruct S as [S H]).
  apply negb_true_iff in S.
  apply Z.eqb_eq in T4, T5. apply sf_same in T, T0, T1, T3. pose proof (sf_finite _ _ T2) as F2. apply sf_same in T2.
  assert (FI : from_input real_program m). { exists None, [(sunlit, [])], [m]. split; [exact Cm|now left]. }
  assert (Fs : fits_size m). { unfold fits_size. rewrite T4, T5, Im. cbn. lia. }
  destruct (double_of_Z_exact 6378 ltac:(lia)) as [F6 E6].
  exists m, c, f. split; [exact real_ieee|]. split; [exact good_1|]. split; [exact real_spheroids|]. split; [exact the_scale_accurate|].
  split; [reflexivity|]. split; [exact Fs|]. split; [exact Im|]. split.
  { exists b', lat, lon. split; [exact Sf|]. split. { unfold size_of. rewrite T0, T. unfold body_size. rewrite E6. repeat split; try assumption; lra. }
    destruct (double_of_Z_exact 8 ltac:(lia)) as [F8 E8]. destruct (double_of_Z_exact 270 ltac:(lia)) as [F9 E9].
    unfold angle. rewrite La, Lo, E8, E9, !Rabs_pos_eq by lra. repeat split; try assumption; lra. }
  split; [exact Co|]. intros status left_over removable w w' r Hs E.
  pose proof (input_ready _ _ FI) as R.
  assert (Nj : nth_error (mc_images m) 0 = Some f) by (rewrite Im; reflexivity).
  assert (Cp : computes real_program (if_source f) mu0_plane (mu0_data (A := ar_double) (x_libm real_program) (x_mu0 real_program b') lat lon)) by (rewrite Sf; constructor).
  destruct (elements real_program 0 status left_over removable m c w w' r Hs R Fs Co E) as (params & t & axes & cards & d & rest & o & _ & _ & _ & Pc & _).
  unfold calls_of in Pc. rewrite Pm in Pc. change (x_libm real_program) with real_library in Pc. rewrite Np in Pc. rewrite T4, T5 in Pc.
  assert (Sz : map_size 2 1) by (unfold map_size; lia).
  pose proof (sc_point ar_double _ _ p 2 1 _ o Sz Pc 0 0 ltac:(lia) ltac:(lia)) as Q. cbv zeta in Q. rewrite S in Q.
  change (plotted 2 (c_calls c) 0 0 (cell_0 (prograde b) p 2 1)) in Q. rewrite <- T5 in Q at 1.
  destruct (plotted_computed real_program 0 status left_over removable m c w w' r 0 f _ _ Hs R Fs the_scale_accurate Co E Nj Lf Cp 0 0 _ ltac:(lia) ltac:(lia) Q) as [o' Ph].
  unfold mu0_data in Ph. change (l_degree (x_libm real_program)) with d_degree in Ph. cbn [a_mul ar_double] in Ph.
  change (x_mu0 real_program b') with (double_mu0 real_library real_arctan (Spheroid_Model.eq_rad b') (Spheroid_Model.pol_rad b')) in Ph.
  rewrite T, T0, T3, T2, T1 in Ph. rewrite fails in Ph; [discriminate Ph|reflexivity|]. rewrite <- T2. exact F2.
Qed.

Theorem assertion_holds X arctan s pl physical (q : double * double) off rla rlo far cosine e :
  ieee X -> good_library (x_libm X) arctan -> spheroids X arctan -> computes X s pl physical ->
  5e-15 <= off <= 1e-6 -> upon off (fst q) rla -> toward off (snd q) rlo -> 0 < far ->
  shows_cosine (spherical far rla rlo) off s cosine e -> Rabs cosine <= 1 - e ->
  exists data : double, physical (fst q) (snd q) = Ok (Some data) /\ nearly data cosine e.
Proof.
  intros I GL SP Cm Hoff U T Hfar Sh Hc.
  assert (Sub : forall x : double, angle x 360 -> toward off (Bmult mode_NE x d_degree) (radians (B2R x))).
  { intros x [Fx Bx]. destruct (radians_pi x Fx Bx) as (Fr & Er & Br). split; [exact Fr|]. split; lra. }
  assert (Dg : l_degree (x_libm X) = d_degree) by apply I.
  assert (Ck : forall data : double, nearly data cosine e -> checked_cosine (A := ar_double) data = Ok (Some data)).
  { intros data [Fd Nd]. unfold checked_cosine.
    change (a_of_Z ar_double (-1)) with (double_of_Z (-1)). change (a_of_Z ar_double 1) with (double_of_Z 1).
    destruct (double_of_Z_exact (-1) ltac:(lia)) as [F1 V1]. destruct (double_of_Z_exact 1 ltac:(lia)) as [F2 V2].
    rewrite !Entry_Proofs.le_double by assumption. rewrite V1, V2. abs Hc. abs Nd. rewrite !Rle_bool_true by lra. reflexivity. }
  destruct Sh as [b lat lon range Sz A1 A2 D On|b lat lon Sz A1 A2 On|b lat lon slat slon range Sz A1 A2 A3 A4 D On]; inversion Cm; subst; clear Cm;
    destruct (body_functions (x_libm X) arctan (Spheroid_Model.eq_rad b) (Spheroid_Model.pol_rad b) off (fst q) (snd q) rla rlo far GL Sz ltac:(lra) U T Hfar On) as (_ & _ & _ & M0 & M & Mp).
  - pose proof (M _ _ _ _ range (Sub lat A1) (Sub lon A2) D) as N. eexists. split; [|exact N].
    unfold mu_data. destruct (SP b) as (_ & _ & Em & _). rewrite Em, Dg. cbn [a_mul ar_double]. apply Ck. exact N.
  - pose proof (M0 _ _ _ _ (Sub lat A1) (Sub lon A2)) as N. eexists. split; [|exact N].
    unfold mu0_data. destruct (SP b) as (_ & _ & _ & Em & _). rewrite Em, Dg. cbn [a_mul ar_double]. apply Ck. exact N.
  - pose proof (Mp _ _ _ _ _ _ _ _ range (Sub lat A1) (Sub lon A2) (Sub slat A3) (Sub slon A4) D) as N. eexists. split; [|exact N].
    unfold cos_phase_data. destruct (SP b) as (_ & _ & _ & _ & Em). rewrite Em, Dg. cbn [a_mul ar_double]. apply Ck. exact N.
Qed.
