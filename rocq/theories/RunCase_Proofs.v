(** A program to run: an exact std::fmod and a std::log10 accurate to 1/10, both
    computable, so that C100 to C104 hold of something. *)
From Coq Require Import List ZArith Reals Bool String Lra Lia Psatz.
From Flocq Require Import Core BinarySingleNaN.
From Verif Require Import Base BaseFacts Flt FltFacts Num Maths_Model Spheroid_Model Extrema_Model MakeMap_Model Proj_Model Virtual_Model Virtual_Spec Virtual_Proofs Params_Model
  Photo_Model Command_Model Input_Model Entry_Model Parse_Model Parse_Spec Run_Model Run_Spec.
Import ListNotations.
Open Scope R_scope.

#[local] Existing Instance prec53.
#[local] Existing Instance emax53.

(** ** std::fmod *)
Definition parts_of (x : double) : option (Z * Z) :=
  match x with
  | B754_zero _ => Some (0, 0)%Z
  | B754_finite s m e _ => Some (cond_Zopp s (Zpos m), e)
  | _ => None
  end.
Lemma parts_of_value x m e : parts_of x = Some (m, e) -> B2R x = IZR m * bpow radix2 e.
Proof.
  destruct x as [s|s| |s m' e' H]; intros E; try discriminate E; cbn in E; injection E as <- <-.
  - cbn. ring.
  - cbn. unfold F2R. cbn. destruct s; reflexivity.
Qed.
Lemma parts_of_bound x m e : parts_of x = Some (m, e) -> (Z.abs m < 2 ^ 53 /\ -1074 <= e <= 971)%Z.
Proof.
  destruct x as [s|s| |s m' e' H]; intros E; try discriminate E; cbn in E; injection E as <- <-; [cbn; lia|].
  rewrite abs_cond_Zopp. cbn [Z.abs].
  apply andb_prop in H. destruct H as [H1 H2]. apply Zeq_bool_eq in H1. apply Zle_bool_imp_le in H2.
  unfold SpecFloat.fexp, SpecFloat.emin in H1. rewrite Digits.Zpos_digits2_pos in H1.
  assert (D := Digits.Zdigits_correct radix2 (Zpos m')). cbn [Z.abs] in D.
  assert (Digits.Zdigits radix2 (Zpos m') <= 53)%Z by lia.
  split; [|lia]. apply Z.lt_le_trans with (1 := proj2 D).
  change (2 ^ 53)%Z with (Zpower radix2 53). apply Zpower_le. assumption.
Qed.
Definition remainder (x y : double) : double :=
  match parts_of x, parts_of y with
  | Some (m, e), Some (n, f) =>
      let g := Z.min e f in
      binary_normalize 53 1024 prec53 emax53 mode_NE (Z.rem (m * 2 ^ (e - g)) (n * 2 ^ (f - g))) g false
  | _, _ => B754_nan
  end.
Lemma shifted m e g : (g <= e)%Z -> IZR m * bpow radix2 e = IZR (m * 2 ^ (e - g)) * bpow radix2 g.
Proof.
  intros H. rewrite mult_IZR. change 2%Z with (radix_val radix2) at 1. rewrite IZR_Zpower by lia.
  rewrite Rmult_assoc, <- bpow_plus. repeat f_equal. lia.
Qed.
Lemma remainder_spec : fmod_spec remainder.
Proof.
  split.
  - intros x y Fx Fy Py. unfold remainder.
    destruct (parts_of x) as [[m e]|] eqn:Ex; [|destruct x; discriminate].
    destruct (parts_of y) as [[n f]|] eqn:Ey; [|destruct y; discriminate].
    rewrite (parts_of_value _ _ _ Ex), (parts_of_value _ _ _ Ey). rewrite (parts_of_value _ _ _ Ey) in Py.
    destruct (parts_of_bound _ _ _ Ex) as [Bm Be]. destruct (parts_of_bound _ _ _ Ey) as [Bn Bf].
    set (g := Z.min e f). rewrite (shifted m e g), (shifted n f g) in * by (unfold g; lia).
    set (u := (m * 2 ^ (e - g))%Z). set (v := (n * 2 ^ (f - g))%Z) in *.
    assert (Pv : (0 < v)%Z). { apply lt_IZR. apply Rmult_lt_reg_r with (bpow radix2 g); [apply bpow_gt_0|]. now rewrite Rmult_0_l. }
    assert (Rv := Z.rem_bound_abs u v ltac:(lia)). rewrite (Z.abs_eq v) in Rv by lia.
    set (r := Z.rem u v) in *.
    assert (Br : (Z.abs r < 2 ^ 53)%Z).
    { destruct (Z.le_gt_cases e f) as [L|L].
      - assert (U : u = m) by (unfold u, g; replace (e - Z.min e f)%Z with 0%Z by lia; lia).
        assert (Hr := Z.rem_le (Z.abs u) v ltac:(lia) Pv). rewrite <- (Z.abs_eq v) in Hr by lia. rewrite Z.rem_abs in Hr by lia. unfold r. lia.
      - assert (V : v = n) by (unfold v, g; replace (f - Z.min e f)%Z with 0%Z by lia; lia). lia. }
    assert (G : generic_format radix2 (SpecFloat.fexp 53 1024) (F2R (Float radix2 r g))).
    { apply generic_format_FLT. exists (Float radix2 r g); [reflexivity|exact Br|]. cbn [Fexp]. unfold SpecFloat.emin, g. lia. }
    assert (N := binary_normalize_correct 53 1024 prec53 emax53 mode_NE r g false).
    cbv beta zeta in N. rewrite round_generic in N by (auto with typeclass_instances). rewrite Rlt_bool_true in N.
    + destruct N as (Nv & Nf & _). split; [exact Nf|]. rewrite Nv. unfold F2R. cbn [Fnum Fexp]. split.
      * rewrite Rabs_mult, (Rabs_pos_eq (bpow _ _)) by apply bpow_ge_0. apply Rmult_lt_compat_r; [apply bpow_gt_0|].
        rewrite <- abs_IZR. apply IZR_lt. exact Rv.
      * exists (Z.quot u v). rewrite (Z.quot_rem' u v) at 1. fold r. rewrite plus_IZR, mult_IZR. ring.
    + unfold F2R. cbn [Fnum Fexp]. rewrite Rabs_mult, (Rabs_pos_eq (bpow _ _)) by apply bpow_ge_0.
      apply Rlt_le_trans with (bpow radix2 53 * bpow radix2 g).
      * apply Rmult_lt_compat_r; [apply bpow_gt_0|]. rewrite <- abs_IZR. change (bpow radix2 53) with (IZR (2 ^ 53)). apply IZR_lt. exact Br.
      * rewrite <- bpow_plus. apply bpow_le. unfold g. lia.
  - intros x y Fx. unfold remainder. destruct x; try discriminate; reflexivity.
Qed.

(** ** std::log10 *)
Definition lambda : R := ln 2 / ln 10.
Lemma ln10_pos : 0 < ln 10. Proof. rewrite <- ln_1. apply ln_increasing; lra. Qed.
Lemma ln_power (b n : Z) : (0 < b)%Z -> (0 <= n)%Z -> ln (IZR (b ^ n)) = IZR n * ln (IZR b).
Proof.
  intros Hb Hn. rewrite <- (Z2Nat.id n) at 1 by exact Hn. rewrite <- pow_IZR, ln_pow by (apply (IZR_lt 0), Hb).
  now rewrite INR_IZR_INZ, Z2Nat.id.
Qed.
Lemma lambda_bounds : 0.3010299 < lambda < 0.301031.
Proof.
  assert (P := ln10_pos). unfold lambda.
  assert (L : 643 * ln 10 < 2136 * ln 2).
  { change 10 with (IZR 10). change 2 with (IZR 2). rewrite <- !ln_power by lia. apply ln_increasing; [apply (IZR_lt 0)|apply IZR_lt]; reflexivity. }
  assert (U : 485 * ln 2 < 146 * ln 10).
  { change 10 with (IZR 10). change 2 with (IZR 2). rewrite <- !ln_power by lia. apply ln_increasing; [apply (IZR_lt 0)|apply IZR_lt]; reflexivity. }
  split; apply (Rmult_lt_reg_r (ln 10)); try assumption; unfold Rdiv; rewrite Rmult_assoc, Rinv_l by lra; lra.
Qed.

Definition quarters (m e : Z) : Z := (Z.log2 (m ^ 4) + 4 * e)%Z.
Definition log10_estimate (x : double) : double :=
  match x with
  | B754_zero _ => B754_infinity true
  | B754_finite false m e _ => binary_normalize 53 1024 prec53 emax53 mode_NE (quarters (Zpos m) e * 82746495135) (-40) false
  | _ => B754_nan
  end.
Definition the_scale : scale_libm := ScaleLibm log10_estimate (fun k => double_of_Z (10 ^ k)).

Lemma small_normal k g : (Z.abs k < 2 ^ 53)%Z -> (-1074 <= g <= 0)%Z ->
  is_finite (binary_normalize 53 1024 prec53 emax53 mode_NE k g false) = true /\
  B2R (binary_normalize 53 1024 prec53 emax53 mode_NE k g false) = IZR k * bpow radix2 g.
Proof.
  intros K Hg.
  assert (G : generic_format radix2 (SpecFloat.fexp 53 1024) (F2R (Float radix2 k g))).
  { apply generic_format_FLT. exists (Float radix2 k g); [reflexivity|exact K|]. cbn [Fexp]. unfold SpecFloat.emin. lia. }
  assert (N := binary_normalize_correct 53 1024 prec53 emax53 mode_NE k g false).
  cbv beta zeta in N. rewrite round_generic in N by (auto with typeclass_instances). rewrite Rlt_bool_true in N.
  - destruct N as (Nv & Nf & _). split; [exact Nf|exact Nv].
  - unfold F2R. cbn [Fnum Fexp]. rewrite Rabs_mult, (Rabs_pos_eq (bpow _ _)) by apply bpow_ge_0.
    apply Rlt_le_trans with (bpow radix2 53 * bpow radix2 g).
    + apply Rmult_lt_compat_r; [apply bpow_gt_0|]. rewrite <- abs_IZR. change (bpow radix2 53) with (IZR (2 ^ 53)). apply IZR_lt. exact K.
    + rewrite <- bpow_plus. apply bpow_le. lia.
Qed.

Lemma the_scale_accurate : accurate the_scale.
Proof.
  split; [|split; [|reflexivity]].
  - intros x Fx Px. cbn [s_log10 the_scale]. destruct x as [s|s| |s m e H]; try discriminate Fx; [cbn in Px; lra|].
    destruct s. { exfalso. revert Px. apply Rle_not_lt. cbn. apply F2R_le_0. cbn. lia. }
    assert (Hb := parts_of_bound (B754_finite false m e H) _ _ eq_refl). cbn [cond_Zopp] in Hb. destruct Hb as [Bm Be]. cbn [Z.abs] in Bm.
    rewrite (parts_of_value (B754_finite false m e H) _ _ eq_refl). cbn [cond_Zopp log10_estimate].
    assert (P4 : (0 < Zpos m ^ 4)%Z) by (apply Z.pow_pos_nonneg; lia).
    destruct (Z.log2_spec _ P4) as [Q1 Q2]. set (q := Z.log2 (Zpos m ^ 4)) in *.
    assert (Q0 : (0 <= q)%Z) by apply Z.log2_nonneg.
    assert (Q3 : (q < 212)%Z).
    { apply Z.log2_lt_pow2; [exact P4|]. change (2 ^ 212)%Z with ((2 ^ 53) ^ 4)%Z. apply Z.pow_lt_mono_l; lia. }
    unfold quarters. fold q. set (k := (q + 4 * e)%Z).
    assert (Hk : (-4296 <= k <= 4096)%Z) by (unfold k; lia).
    destruct (small_normal (k * 82746495135) (-40) ltac:(lia) ltac:(lia)) as [Nf Nv]. split; [exact Nf|]. rewrite Nv.
    assert (Pm : 0 < IZR (Zpos m)) by (apply (IZR_lt 0); lia).
    assert (E : ln (IZR (Zpos m) * bpow radix2 e) / ln 10 = (ln (IZR (Zpos m)) + IZR e * ln 2) / ln 10).
    { rewrite ln_mult by (auto; apply bpow_gt_0). rewrite bpow_exp, ln_exp. reflexivity. }
    rewrite E. clear E.
    assert (M1 : IZR q * ln 2 <= 4 * ln (IZR (Zpos m))).
    { change 4 with (IZR 4). change 2 with (IZR 2). rewrite <- !ln_power by lia. apply IZR_le in Q1.
      destruct Q1 as [Q1|Q1]; [|rewrite Q1; lra]. left. apply ln_increasing; [|exact Q1]. apply (IZR_lt 0). apply Z.pow_pos_nonneg; lia. }
    assert (M2 : 4 * ln (IZR (Zpos m)) <= (IZR q + 1) * ln 2).
    { rewrite <- plus_IZR. change 4 with (IZR 4). change 2 with (IZR 2). rewrite <- !ln_power by lia. left. apply ln_increasing; [now apply (IZR_lt 0)|].
      apply IZR_lt. exact Q2. }
    assert (P := ln10_pos). destruct lambda_bounds as [L1 L2].
    assert (Lq : ln 2 = lambda * ln 10) by (unfold lambda; field; lra). rewrite Lq in *.
    assert (K1 : IZR k * lambda / 4 <= (ln (IZR (Zpos m)) + IZR e * (lambda * ln 10)) / ln 10 <= (IZR k + 1) * lambda / 4).
    { unfold k. rewrite plus_IZR, mult_IZR.
      split; apply (Rmult_le_reg_r (ln 10)); try exact P; unfold Rdiv; rewrite (Rmult_assoc (_ + IZR e * _)), Rinv_l by lra; nra. }
    change (bpow radix2 (-40)) with (/ IZR (2 ^ 40)). rewrite mult_IZR.
    assert (Hk' : -4296 <= IZR k <= 4096) by (split; apply IZR_le; lia).
    change (IZR (2 ^ 40)) with 1099511627776.
    assert (C : Rabs (IZR k * (82746495135 * / 1099511627776 - lambda / 4)) <= 0.005).
    { rewrite Rabs_mult. apply Rle_trans with (4296 * 1e-6); [|lra].
      apply Rmult_le_compat; try apply Rabs_pos; apply Rabs_le; lra. }
    apply Rabs_le_inv in C. apply Rabs_le. lra.
  - intros x Fx Zx. destruct x as [s|s| |s m e H]; try discriminate Fx; [reflexivity|].
    exfalso. revert Zx. cbn.
    intros Zx. apply eq_0_F2R in Zx. destruct s; discriminate.
Qed.

(** ** The program *)
Definition no_image : fits_file ar_double :=
  FitsFile (A := ar_double) 104 (FitsImage (A := ar_double) [] (fun _ => None) 0 0 (fun _ => None)) key_absent key_absent.
Definition the_libm : libm ar_double :=
  Libm ar_double (fun x => x) (fun x => x) (fun x => x) (fun x => x) (fun x _ => x) (fun x _ => x) (fun x _ => x) (fun x => x)
    d_2pi d_2pi d_pi2 d_pi2 d_degree eps_double tiny_double.
Definition the_program : outside :=
  Outside the_libm the_scale (as_wide ar_double) remainder (fun x => x) d_circle (double_of_Z 149597870) (double_of_Z 1)
    (fun _ _ _ _ => Throw runtime_error) (fun _ _ _ => None) (fun _ x => x) (fun _ x => x) (fun _ x => x) (fun _ => double_of_Z 0)
    (fun _ _ _ _ _ _ => dlit 1 (-1)) (fun _ _ _ _ _ => double_of_Z 0) (fun _ _ _ _ _ _ _ _ => double_of_Z 0)
    (fun _ => no_image) (fun _ => Header (fun _ => EmptyString) 8 None None)
    (fun _ _ _ => RawGeometry (A := ar_double) (fun _ _ _ => Throw runtime_error) (fun _ _ _ => Ok tt)).
Lemma the_program_ieee : ieee the_program.
Proof. constructor; try reflexivity. exact remainder_spec. Qed.

(** 16 bit latitudes and longitudes of the whole Earth, 4 by 2. *)
Definition digit (z : Z) : number := NumText None [z] None None.
Definition the_map (p : plane_type) : map_entry :=
  MapEntry "map.fits" None None [] [] "Earth" (given_radii (A := ar_double) (double_of_Z 6378) (double_of_Z 6357)) true
    None None (Some 16%Z) None None (T_simple_c None) None (digit 4) (digit 2) (PlaneEntry None no_range p) [].
Definition peek (l : list Z) (f : file) : option (list (option Z)) :=
  match f with
  | new_file [h] => Some (map (fun z => match h_disk h z with Some (existT _ I16 v) => Some v | _ => None end) l)
  | _ => None
  end.
Definition first_run (X : outside) (e : map_entry) (cells : list Z) : option (list (option Z)) :=
  match commands_of X (texts None [(e, [])]) with
  | Ok (Some [m]) =>
      match command_of X 0 m with
      | Some c =>
          match execute (fun _ => 0%Z) (fun _ _ => None) true c (World old_file 0) with
          | (w, Ok _) => peek cells (w_file w)
          | _ => None
          end
      | None => None
      end
  | _ => None
  end.
Lemma first_run_inv X e cells l : first_run X e cells = Some l ->
  exists m c w' r, commands_of X (texts None [(e, [])]) = Ok (Some [m]) /\ from_input X m /\
    command_of X 0 m = Some c /\
    execute (fun _ => 0%Z) (fun _ _ => None) true c (World old_file 0) = (w', Ok r) /\ peek cells (w_file w') = Some l.
Proof.
  unfold first_run. intros H. destruct (commands_of _ _) as [o| |] eqn:Hc; try discriminate.
  destruct o as [l'|]; [|discriminate]. destruct l' as [|m l']; [discriminate|]. destruct l'; [|discriminate].
  destruct (command_of _ _ _) as [c|] eqn:Hm; [|discriminate]. destruct (execute _ _ _ _ _) as [w' o] eqn:He. destruct o as [r| |]; try discriminate.
  exists m, c, w', r. split; [reflexivity|]. split; [exists None, [(e, [])], [m]; split; [exact Hc|now left]|].
  split; [exact Hm|]. split; [exact He|exact H].
Qed.
Definition the_cells : list Z := [0; 1; 2; 3; 4; 5; 6; 7; 8; 9]%Z.
Definition the_run (p : plane_type) : option (list (option Z)) := first_run the_program (the_map p) the_cells.

(** Seen from above 10 degrees west of the prime meridian, 100000 km away. *)
Definition seen_from : point_entry :=
  lat_first (LatEntry (double_of_Z 0) no_hemisphere Centric) (LonEntry (double_of_Z 10) West).
Definition far_away : range_entry := RangeEntry (double_of_Z 100000) KM.
