(** Scale and offset of the computed planes: used by the proofs of C101 to C103. *)
From Coq Require Import List ZArith Reals Bool String Lra Lia Psatz.
From Flocq Require Import Core BinarySingleNaN Relative.
From Verif Require Import Base BaseFacts Flt FltFacts Num Maths_Model Maths_Proofs Extrema_Model Extrema_Spec MakeMap_Model MakeMap_Spec
  Proj_Model Virtual_Model Virtual_Spec Virtual_Proofs VirtualScale_Proofs VirtualPlane_Proofs Params_Model Command_Model Command_Spec
  Run_Spec RunAngle_Proofs.
Import ListNotations.
Open Scope R_scope.

#[local] Existing Instance prec53.
#[local] Existing Instance emax53.
Ltac abs H := apply Rabs_le_inv in H.

Definition integral_type (t : mapty) : bool := match t with F32 | F64 => false | _ => true end.

(** What [make] of a computed plane yields when the user set no limits. *)
Record made (t : mapty) (p : plane) (s o : double) (ex : extrema (ct F64)) (sv ov : Z) : Prop := Made {
  md_fs : is_finite s = true; md_fo : is_finite o = true;
  md_s : B2R s = IZR sv; md_o : B2R o = IZR ov;
  md_sv : (1 <= sv <= 10 ^ 18)%Z;
  md_steps : if integral_type t then sv = steps t p else (sv = 1 /\ ov = 0)%Z;
  md_ov : (Z.abs ov <= plane_high p * sv)%Z;
  md_f1 : is_finite (Bmult mode_NE (double_of_Z (plane_low p)) s) = true;
  md_f2 : is_finite (Bmult mode_NE (double_of_Z (plane_high p)) s) = true;
  md_min : exists a, e_min ex = Some a /\ a = Bplus mode_NE (Bmult mode_NE (double_of_Z (plane_low p)) s) o /\
     is_finite (a : double) = true /\ B2R (a : double) = IZR (plane_low p * sv + ov);
  md_max : exists a, e_max ex = Some a /\ a = Bplus mode_NE (Bmult mode_NE (double_of_Z (plane_high p)) s) o /\
     is_finite (a : double) = true /\ B2R (a : double) = IZR (plane_high p * sv + ov);
  md_range : type_low t <= IZR (plane_low p * sv + ov) /\ IZR (plane_high p * sv + ov) <= type_high t }.

Lemma made_virtual L t p s o : scale_and_offset L t (double_of_Z (plane_low p)) (double_of_Z (plane_high p)) = Ok (Some (s, o)) ->
  is_finite (Bplus mode_NE (Bmult mode_NE (double_of_Z (plane_low p)) s) o) = true ->
  is_finite (Bplus mode_NE (Bmult mode_NE (double_of_Z (plane_high p)) s) o) = true ->
  make_virtual L t p ex_empty = Ok (s, o, Extrema (T := ct F64) (Some (Bplus mode_NE (Bmult mode_NE (double_of_Z (plane_low p)) s) o))
     (Some (Bplus mode_NE (Bmult mode_NE (double_of_Z (plane_high p)) s) o))).
Proof.
  intros E F3 F4. unfold make_virtual. rewrite E. unfold bind.
  unfold factory_minimum, factory_maximum, ex_empty, ex_set_min, ex_set_max, validate_minimum, validate_maximum.
  cbn [e_min e_max]. rewrite (finite_not_nan _ F3), (finite_not_nan _ F4). reflexivity.
Qed.

Lemma made_plane L t p : accurate L -> ~ (t = U8 /\ p = longitude_plane) ->
  exists s o ex sv ov, make_virtual L t p ex_empty = Ok (s, o, ex) /\ made t p s o ex sv ov.
Proof.
  intros A N. destruct (integral_type t) eqn:I.
  - assert (exists lowest highest digits10 range, int_limits t = Some (lowest, highest, digits10, range) /\
      (t = U8 /\ lowest = 0 /\ highest = 255 /\ digits10 = 2 /\ range = 255 \/
       t = I16 /\ lowest = -32768 /\ highest = 32767 /\ digits10 = 4 /\ range = 65535 \/
       t = I32 /\ lowest = -2147483648 /\ highest = 2147483647 /\ digits10 = 9 /\ range = 4294967295 \/
       t = I64 /\ lowest = -9223372036854775808 /\ highest = 9223372036854775807 /\ digits10 = 18 /\ range = 18446744073709551615)%Z)
      as (lowest & highest & digits10 & range & E & C).
    { destruct t; try discriminate; do 4 eexists; (split; [reflexivity|]); auto 10. }
    assert (S : scale_and_offset L t (double_of_Z (plane_low p)) (double_of_Z (plane_high p)) =
      Ok (Some (double_of_Z (10 ^ (digits10 - plane_digits p)),
        offset_for lowest highest (double_of_Z (plane_low p)) (double_of_Z (plane_high p)) (double_of_Z (10 ^ (digits10 - plane_digits p)))))).
    { assert (W : too_wide range (double_of_Z (plane_low p)) (double_of_Z (plane_high p)) = false).
      { destruct C as [(-> & _ & _ & _ & ->)|[(-> & _ & _ & _ & ->)|[(-> & _ & _ & _ & ->)|(-> & _ & _ & _ & ->)]]];
        destruct p; try (vm_compute; reflexivity). exfalso. auto. }
      unfold scale_and_offset. rewrite E, (scale_int_eq L lowest highest digits10 range _ _ (plane_digits p) W (plane_log L p A)).
      assert (K : (0 <= digits10 - plane_digits p <= 22)%Z).
      { destruct C as [(_ & _ & _ & -> & _)|[(_ & _ & _ & -> & _)|[(_ & _ & _ & -> & _)|(_ & _ & _ & -> & _)]]]; destruct p; simpl; lia. }
      now rewrite (accurate_pow L _ A K). }
    assert (G : exists sv ov, made t p (double_of_Z (10 ^ (digits10 - plane_digits p)))
        (offset_for lowest highest (double_of_Z (plane_low p)) (double_of_Z (plane_high p)) (double_of_Z (10 ^ (digits10 - plane_digits p))))
        (Extrema (T := ct F64)
          (Some (Bplus mode_NE (Bmult mode_NE (double_of_Z (plane_low p)) (double_of_Z (10 ^ (digits10 - plane_digits p))))
            (offset_for lowest highest (double_of_Z (plane_low p)) (double_of_Z (plane_high p)) (double_of_Z (10 ^ (digits10 - plane_digits p))))))
          (Some (Bplus mode_NE (Bmult mode_NE (double_of_Z (plane_high p)) (double_of_Z (10 ^ (digits10 - plane_digits p))))
            (offset_for lowest highest (double_of_Z (plane_low p)) (double_of_Z (plane_high p)) (double_of_Z (10 ^ (digits10 - plane_digits p)))))))
        sv ov).
    { clear S E A.
      destruct C as [(-> & -> & -> & -> & ->)|[(-> & -> & -> & -> & ->)|[(-> & -> & -> & -> & ->)|(-> & -> & -> & -> & ->)]]];
      destruct p; try (exfalso; apply N; now split);
      match goal with |- exists sv ov, made ?t ?p ?s ?o (Extrema (Some ?a) (Some ?b)) sv ov =>
        let l := constr:(Bmult mode_NE (double_of_Z (plane_low p)) s) in
        let h := constr:(Bmult mode_NE (double_of_Z (plane_high p)) s) in
        eval_double s F1 V1; eval_double o F2 V2; eval_double l F3 V3; eval_double h F4 V4; eval_double a F5 V5; eval_double b F6 V6;
        match type of V1 with _ = IZR ?sv => match type of V2 with _ = IZR ?ov => exists sv, ov end end end;
      (split; [exact F1|exact F2|exact V1|exact V2|lia|reflexivity|vm_compute; discriminate|exact F3|exact F4
        |eexists; split; [reflexivity|split; [reflexivity|split; [exact F5|rewrite V5; apply f_equal; vm_compute; reflexivity]]]
        |eexists; split; [reflexivity|split; [reflexivity|split; [exact F6|rewrite V6; apply f_equal; vm_compute; reflexivity]]]
        |split; apply IZR_le; vm_compute; discriminate]). }
    destruct G as (sv & ov & G). do 3 eexists. exists sv, ov. split; [|exact G].
    destruct G as [_ _ _ _ _ _ _ _ _ (a & Ea & -> & Fa & _) (b & Eb & -> & Fb & _) _].
    apply made_virtual; assumption.
  - assert (S : scale_and_offset L t (double_of_Z (plane_low p)) (double_of_Z (plane_high p)) = Ok (Some (double_of_Z 1, double_of_Z 0))).
    { destruct t; try discriminate; reflexivity. }
    assert (G : made t p (double_of_Z 1) (double_of_Z 0) (Extrema (T := ct F64)
        (Some (Bplus mode_NE (Bmult mode_NE (double_of_Z (plane_low p)) (double_of_Z 1)) (double_of_Z 0)))
        (Some (Bplus mode_NE (Bmult mode_NE (double_of_Z (plane_high p)) (double_of_Z 1)) (double_of_Z 0)))) 1 0).
    { assert (HR : type_low t <= -1000 /\ 1000 <= type_high t).
      { destruct t; try discriminate; unfold type_low, type_high.
        - unfold FLT_MAX. split; [|]; simpl; lra.
        - split; apply IZR_le; vm_compute; discriminate. }
      assert (HP : (-1000 <= plane_low p * 1 + 0 /\ plane_high p * 1 + 0 <= 1000)%Z) by (destruct p; cbn; lia).
      destruct HP as [HP1 HP2]. apply IZR_le in HP1, HP2.
      clear S. destruct p;
      match goal with |- made ?t ?p ?s ?o (Extrema (Some ?a) (Some ?b)) 1 0 =>
        let l := constr:(Bmult mode_NE (double_of_Z (plane_low p)) s) in
        let h := constr:(Bmult mode_NE (double_of_Z (plane_high p)) s) in
        eval_double s F1 V1; eval_double o F2 V2; eval_double l F3 V3; eval_double h F4 V4; eval_double a F5 V5; eval_double b F6 V6 end;
      (split; [exact F1|exact F2|exact V1|exact V2|lia|rewrite I; split; reflexivity|vm_compute; discriminate|exact F3|exact F4
        |eexists; split; [reflexivity|split; [reflexivity|split; [exact F5|rewrite V5; apply f_equal; vm_compute; reflexivity]]]
        |eexists; split; [reflexivity|split; [reflexivity|split; [exact F6|rewrite V6; apply f_equal; vm_compute; reflexivity]]]
        |split; lra]). }
    do 3 eexists. exists 1%Z, 0%Z. split; [|exact G].
    destruct G as [_ _ _ _ _ _ _ _ _ (a & Ea & -> & Fa & _) (b & Eb & -> & Fb & _) _].
    apply made_virtual; assumption.
Qed.

Lemma float_integer z : (Z.abs z <= 1000)%Z -> exists a : ct F32, tval F32 a = Some (IZR z).
Proof.
  intros H. destruct (double_of_Z_exact z ltac:(lia)) as [F V].
  assert (G : round radix2 (SpecFloat.fexp 24 128) ZnearestE (B2R (double_of_Z z)) = IZR z).
  { rewrite V. apply round_generic; [apply valid_rnd_N|]. apply generic_format_FLT.
    apply (FLT_spec radix2 _ 24 (IZR z) (Float radix2 z 0)); cbn [Fnum Fexp]; [unfold F2R; cbn; lra| |unfold SpecFloat.emin; lia].
    apply Z.le_lt_trans with 1000%Z; [exact H|reflexivity]. }
  destruct (float_of_double_round (double_of_Z z) F) as [F' V'].
  { rewrite V, <- abs_IZR. apply Rle_trans with (IZR 1000); [now apply IZR_le|]. unfold FLT_MAX_R. simpl. lra. }
  exists (float_of_double (double_of_Z z)). cbn [tval]. rewrite (finite_not_nan _ F'). f_equal. now rewrite fval_finite, V', G.
Qed.

Lemma made_limits t p s o ex sv ov : made t p s o ex sv ov ->
  plane_limits t ex (IZR (plane_low p * sv + ov)) (IZR (plane_high p * sv + ov)).
Proof.
  intros [_ _ _ _ SV ST OV _ _ (a & Ea & _ & Fa & Va) (b & Eb & _ & Fb & Vb) [R1 R2]].
  assert (LE : IZR (plane_low p * sv + ov) <= IZR (plane_high p * sv + ov)) by (apply IZR_le; destruct p; cbn [plane_low plane_high]; lia).
  assert (HA : forall z, z = (plane_low p * sv + ov)%Z \/ z = (plane_high p * sv + ov)%Z -> exists x, tval t x = Some (IZR z)).
  { intros z Hz. destruct t; cbn [integral_type] in ST; try (exists z; reflexivity).
    - apply float_integer. destruct ST as [-> ->]. destruct p; cbn in Hz; lia.
    - destruct ST as [-> ->]. exists (double_of_Z z). destruct (double_of_Z_exact z) as [F V].
      { destruct p; cbn in Hz; lia. }
      cbn [tval]. rewrite (finite_not_nan _ F), fval_finite, V; [reflexivity|exact F]. }
  unfold plane_limits. rewrite Ea, Eb. unfold plane_limit, dval.
  rewrite (finite_not_nan _ Fa), (finite_not_nan _ Fb), !fval_finite, Va, Vb by assumption.
  split; [|split; [|discriminate]].
  - split; [reflexivity|]. split; [lra|]. apply HA. now left.
  - split; [reflexivity|]. split; [lra|]. apply HA. now right.
Qed.

Lemma plane_range_abs p r : plane_range p r -> Rabs r <= greatest_value p /\ 1 <= greatest_value p <= 360.
Proof. intros H. destruct p; cbn in *; (split; [apply Rabs_le; lra|lra]). Qed.

(** The datum read, [v * s + o] in doubles. *)
Lemma made_datum t p s o ex sv ov (v : double) : made t p s o ex sv ov -> is_finite v = true -> plane_range p (B2R v) ->
  let x := Bplus mode_NE (Bmult mode_NE v s) o in
  is_finite x = true /\ IZR (plane_low p * sv + ov) <= B2R x <= IZR (plane_high p * sv + ov) /\
  Rabs (B2R x - (B2R v * IZR sv + IZR ov)) <= 4 * u * greatest_value p * IZR sv.
Proof.
  intros [Fs Fo Vs Vo SV _ OV F1 F2 (a & _ & -> & Fa & Va) (b & _ & -> & Fb & Vb) _] Fv R. cbv zeta.
  assert (S1 : 1 <= IZR sv <= 1e18).
  { destruct SV as [S1 S2]. apply IZR_le in S1, S2. change (IZR (10 ^ 18)) with (IZR 1000000000000000000) in S2. lra. }
  destruct (affine_between _ v _ s o Fv Fs Fo ltac:(rewrite Vs; lra) (plane_ends p _ R) F1 F2 Fa Fb) as [Fd [M1 M2]].
  rewrite Va in M1. rewrite Vb in M2. split; [exact Fd|]. split; [lra|].
  destruct (plane_range_abs p _ R) as [RA [G1 G2]]. set (g := greatest_value p) in *. set (S := IZR sv) in *.
  assert (O : Rabs (IZR ov) <= g * S).
  { rewrite <- abs_IZR. apply IZR_le in OV. eapply Rle_trans; [exact OV|]. rewrite mult_IZR. fold S. right. f_equal. unfold g. destruct p; cbn; lra. }
  pose proof u_bounds as U. pose proof eta_u as T. pose proof eta_small as [T0 _]. pose proof u_value as UV.
  assert (VS : Rabs (B2R v * S) <= g * S). { rewrite Rabs_mult, (Rabs_pos_eq S) by lra. apply Rmult_le_compat_r; lra. }
  assert (GS : 1 <= g * S <= 1e25). { split; [nra|]. apply Rle_trans with (360 * 1e18); [apply Rmult_le_compat; lra|lra]. }
  set (q := g * S) in *.
  destruct (mult_near v s q) as [Fm Em]; try assumption; [now rewrite Vs|lra|]. rewrite Vs in Em.
  assert (Q : q * u + eta <= q * (1.1 * u)) by nra.
  assert (Bm : Rabs (B2R (Bmult mode_NE v s)) <= q * (1 + 1.1 * u)).
  { abs Em. abs VS. apply Rabs_le. lra. }
  destruct (plus_near (Bmult mode_NE v s) o (q * (2 + 1.1 * u))) as [_ Ep]; try assumption.
  { rewrite Vo. abs Bm. abs O. apply Rabs_le. lra. }
  { rewrite UV in *. lra. }
  rewrite Vo in Ep. abs Ep. abs Em. replace (4 * u * g * S) with (q * (4 * u)) by (unfold q; ring).
  assert (q * (2 + 1.1 * u) * u + eta <= q * (2.1 * u)). { assert (q * (1.1 * u) * u <= q * (0.05 * u)) by nra. nra. }
  apply Rabs_le. lra.
Qed.

Lemma float_err x M : Rabs x <= M -> Rabs (converted F32 x - x) <= M / IZR (2 ^ 24) + / IZR (2 ^ 150).
Proof.
  intros H. cbn [converted]. destruct (error_N_FLT radix2 (-149) 24 eq_refl (fun z => negb (Z.even z)) x) as (e & t & E & T & _ & R).
  change (radix2 : Z) with 2%Z in *.
  assert (E' : Rabs e <= / IZR (2 ^ 24)).
  { eapply Rle_trans; [exact E|]. unfold u_ro. right. change (-24 + 1)%Z with (-23)%Z. cbn. lra. }
  assert (T' : Rabs t <= / IZR (2 ^ 150)).
  { eapply Rle_trans; [exact T|]. right. change (/2) with (bpow radix2 (-1)). rewrite <- bpow_plus. reflexivity. }
  change ZnearestE with (Znearest (fun z => negb (Z.even z))). rewrite R. replace (x * (1 + e) + t - x) with (x * e + t) by ring.
  eapply Rle_trans; [apply Rabs_triang|]. rewrite Rabs_mult.
  apply Rplus_le_compat; [|exact T']. unfold Rdiv. apply Rmult_le_compat; try apply Rabs_pos; assumption.
Qed.

Definition zero_card (z : double) : double :=
  if almost_zero (A := ar_double) eps_double z 1 then double_of_Z 0 else z.
Lemma zero_card_near z : is_finite z = true -> is_finite (zero_card z) = true /\ Rabs (B2R (zero_card z) - B2R z) <= 3 * u.
Proof.
  intros F. pose proof u_bounds as U. pose proof eta_u as T. pose proof eta_small as [T0 _]. unfold zero_card.
  destruct (almost_zero (A := ar_double) eps_double z 1) eqn:Z.
  - destruct (double_of_Z_exact 0 ltac:(lia)) as [F0 V0]. split; [exact F0|]. rewrite V0.
    unfold almost_zero in Z. cbn [a_lt a_abs a_mul a_of_Z ar_double] in Z.
    destruct eps_double_val as [Fe Ee]. assert (Ev : B2R eps_double = 2 * u).
    { rewrite Ee. unfold u. change (-52)%Z with (-53 + 1)%Z. rewrite bpow_plus. cbn. lra. }
    destruct (double_of_Z_exact 1 ltac:(lia)) as [F1 V1].
    destruct (mult_near eps_double (double_of_Z 1) (2 * u)) as [Fm Em]; try assumption; [|lra|].
    { rewrite Ev, V1. rewrite Rabs_pos_eq; lra. }
    rewrite Ev, V1 in Em. destruct (abs_val z F) as [Fa Ea].
    rewrite flt_spec in Z by (now apply finite_not_nan). rewrite !fval_finite, Ea in Z by assumption.
    match type of Z with Rlt_bool ?p ?q = true => destruct (Rlt_bool_spec p q) as [Hlt|]; [|discriminate] end.
    replace (0 - B2R z) with (- B2R z) by ring. rewrite Rabs_Ropp. abs Em.
    assert (2 * u * u <= u / 2) by nra. lra.
  - split; [exact F|]. rewrite Rminus_diag_eq, Rabs_R0 by reflexivity. lra.
Qed.

Lemma made_scale t p s o ex sv ov : made t p s o ex sv ov ->
  let scale := virtual_scale (A := ar_double) s in
  let zero := zero_card (virtual_offset (A := ar_double) s o) in
  is_finite (scale : double) = true /\ is_finite zero = true /\
  Rabs (B2R (scale : double) * IZR sv - 1) <= 1.1 * u /\
  Rabs (B2R zero + IZR ov / IZR sv) <= 7 * u * greatest_value p.
Proof.
  intros [Fs Fo Vs Vo SV _ OV _ _ _ _ _]. cbv zeta.
  assert (S1 : 1 <= IZR sv <= 1e18).
  { destruct SV as [S1 S2]. apply IZR_le in S1, S2. change (IZR (10 ^ 18)) with (IZR 1000000000000000000) in S2. lra. }
  pose proof u_bounds as U. pose proof eta_small as [T0 T1]. pose proof u_value as UV.
  change (IZR (2 ^ 200)) with (IZR 1606938044258990275541962092341162602522202993782792835301376) in T1.
  destruct (double_of_Z_exact 1 ltac:(lia)) as [F1 V1]. destruct (double_of_Z_exact 0 ltac:(lia)) as [F0 V0].
  assert (G : 1 <= greatest_value p <= 360) by (destruct p; cbn; lra). set (g := greatest_value p) in *. set (S := IZR sv) in *.
  assert (O : Rabs (IZR ov) <= g * S).
  { rewrite <- abs_IZR. apply IZR_le in OV. eapply Rle_trans; [exact OV|]. rewrite mult_IZR. fold S. right. f_equal. unfold g. destruct p; cbn; lra. }
  assert (I0 : 1e-18 <= / S <= 1).
  { split; [|rewrite <- Rinv_1; apply Rinv_le; lra]. apply Rle_trans with (/ 1e18); [lra|apply Rinv_le; lra]. }
  unfold virtual_offset, virtual_scale. cbn [a_div a_mul a_sub a_of_Z ar_double].
  destruct (div_near (double_of_Z 1) s (/ S)) as [Fd Ed]; try assumption; [rewrite Vs; fold S; lra| |lra|].
  { rewrite V1, Vs. fold S. unfold Rdiv. rewrite Rmult_1_l, Rabs_pos_eq; lra. }
  rewrite V1, Vs in Ed. fold S in Ed. replace (1 / S) with (/ S) in Ed by (field; lra).
  set (b := Bdiv mode_NE (double_of_Z 1) s) in *.
  assert (E1 : Rabs (B2R b - / S) <= / S * (1.05 * u)). { eapply Rle_trans; [exact Ed|]. rewrite UV in *. lra. }
  assert (E2 : Rabs (B2R b * S - 1) <= 1.05 * u).
  { replace (B2R b * S - 1) with ((B2R b - / S) * S) by (field; lra). rewrite Rabs_mult, (Rabs_pos_eq S) by lra.
    apply Rle_trans with (/ S * (1.05 * u) * S); [apply Rmult_le_compat_r; lra|right; field; lra]. }
  split; [exact Fd|].
  assert (GS : 1 <= g * S <= 1e25). { split; [nra|]. apply Rle_trans with (360 * 1e18); [apply Rmult_le_compat; lra|lra]. }
  destruct (minus_near (double_of_Z 0) o (g * S)) as [Fn En]; try assumption; [rewrite V0, Vo; rewrite Rminus_0_l, Rabs_Ropp; exact O|lra|].
  rewrite V0, Vo in En. set (n := Bminus mode_NE (double_of_Z 0) o) in *.
  assert (En' : Rabs (B2R n + IZR ov) <= g * S * (1.05 * u)).
  { replace (B2R n + IZR ov) with (B2R n - (0 - IZR ov)) by ring. eapply Rle_trans; [exact En|]. 
    assert (eta <= 1 * (0.05 * u)) by (rewrite UV in *; lra). assert (1 * (0.05 * u) <= g * S * (0.05 * u)) by (apply Rmult_le_compat_r; lra). lra. }
  (* b * n, divided into parts *)
  assert (K : Rabs (B2R b * B2R n + IZR ov / S) <= 2.2 * u * g).
  { replace (B2R b * B2R n + IZR ov / S) with (B2R b * S * ((B2R n + IZR ov) / S) - (B2R b * S - 1) * (IZR ov / S)) by (field; lra).
    assert (P1 : Rabs ((B2R n + IZR ov) / S) <= g * (1.05 * u)).
    { unfold Rdiv. rewrite Rabs_mult, (Rabs_pos_eq (/ S)) by lra.
      apply Rle_trans with (g * S * (1.05 * u) * / S); [apply Rmult_le_compat_r; lra|right; field; lra]. }
    assert (P2 : Rabs (IZR ov / S) <= g).
    { unfold Rdiv. rewrite Rabs_mult, (Rabs_pos_eq (/ S)) by lra.
      apply Rle_trans with (g * S * / S); [apply Rmult_le_compat_r; lra|right; field; lra]. }
    assert (P3 : Rabs (B2R b * S) <= 1 + 1.05 * u) by (abs E2; apply Rabs_le; lra).
    assert (P4 : Rabs (B2R b * S * ((B2R n + IZR ov) / S)) <= (1 + 1.05 * u) * (g * (1.05 * u))).
    { rewrite Rabs_mult. apply Rmult_le_compat; try apply Rabs_pos; assumption. }
    assert (P5 : Rabs ((B2R b * S - 1) * (IZR ov / S)) <= 1.05 * u * g).
    { rewrite Rabs_mult. apply Rmult_le_compat; try apply Rabs_pos; assumption. }
    abs P4. abs P5. assert ((1 + 1.05 * u) * (g * (1.05 * u)) <= 1.15 * u * g) by nra. apply Rabs_le. lra. }
  assert (OS : Rabs (IZR ov / S) <= g).
  { unfold Rdiv. rewrite Rabs_mult, (Rabs_pos_eq (/ S)) by lra.
    apply Rle_trans with (g * S * / S); [apply Rmult_le_compat_r; lra|right; field; lra]. }
  destruct (mult_near b n (1.1 * g)) as [Fm Em]; try assumption; [|lra|].
  { abs K. abs OS. apply Rabs_le. assert (2.2 * u * g <= 0.1 * g) by nra. lra. }
  destruct (zero_card_near _ Fm) as [Fz Ez]. split; [exact Fz|].
  split; [eapply Rle_trans; [exact E2|lra]|].
  abs Ez. abs Em. abs K. assert (eta <= 0.05 * u) by (rewrite UV in *; lra).
  assert (u <= u * g) by nra. apply Rabs_le. lra.
Qed.

Lemma made_offset t p s o ex sv ov : made t p s o ex sv ov -> Rabs (IZR ov / IZR sv) <= greatest_value p.
Proof.
  intros [_ _ _ _ SV _ OV _ _ _ _ _]. assert (S1 : 1 <= IZR sv) by (apply IZR_le; lia).
  assert (I0 : 0 < / IZR sv) by (apply Rinv_0_lt_compat; lra).
  unfold Rdiv. rewrite Rabs_mult, (Rabs_pos_eq (/ IZR sv)), <- abs_IZR by lra. apply IZR_le in OV. rewrite mult_IZR in OV.
  apply Rle_trans with (IZR (plane_high p) * IZR sv * / IZR sv); [apply Rmult_le_compat_r; lra|].
  rewrite Rmult_assoc, Rinv_r, Rmult_1_r by lra. destruct p; cbn; lra.
Qed.

(** The number that the element holding that datum stands for. *)
Lemma made_number t p s o ex sv ov (v : double) : made t p s o ex sv ov -> is_finite v = true -> plane_range p (B2R v) ->
  let y := converted t (B2R (Bplus mode_NE (Bmult mode_NE v s) o)) in
  if integral_type t then
    Rabs (B2R (virtual_scale (A := ar_double) s : double) * y + B2R (zero_card (virtual_offset (A := ar_double) s o)) - B2R v) <= tolerance t p
  else Rabs (y - B2R v) <= tolerance t p.
Proof.
  intros M Fv R. cbv zeta. destruct (made_datum t p s o ex sv ov v M Fv R) as (_ & _ & E).
  destruct (made_scale t p s o ex sv ov M) as (_ & _ & B & Z).
  destruct (plane_range_abs p _ R) as [RA [G1 G2]]. unfold tolerance. pose proof (made_offset t p s o ex sv ov M) as HO. set (g := greatest_value p) in *. destruct M as [_ _ _ _ SV ST _ _ _ _ _ _].
  set (x := B2R (Bplus mode_NE (Bmult mode_NE v s) o)) in *.
  set (b := B2R (virtual_scale (A := ar_double) s : double)) in *.
  set (z := B2R (zero_card (virtual_offset (A := ar_double) s o))) in *.
  pose proof u_bounds as U. pose proof u_value as UV.
  destruct (integral_type t) eqn:I.
  - assert (C : Rabs (converted t x - x) <= 1).
    { replace (converted t x) with (IZR (Ztrunc x)) by (destruct t; try discriminate I; reflexivity). left. apply trunc_close. }
    assert (S1 : 1 <= IZR sv) by (apply IZR_le; lia). rewrite <- ST.
    replace (match t with F64 => 0 | F32 => g / IZR (2 ^ 24) | _ => / IZR sv end) with (/ IZR sv) by (destruct t; try discriminate I; reflexivity).
    set (S := IZR sv) in *. set (w := IZR ov) in *. set (y := converted t x) in *. set (r := B2R v) in *.
    assert (I0 : 0 < / S <= 1). { split; [apply Rinv_0_lt_compat; lra|]. rewrite <- Rinv_1. apply Rinv_le; lra. }
    replace (b * y + z - r) with (b * S * ((y - x) * / S) + b * S * ((x - (r * S + w)) * / S) + (b * S - 1) * (r + w / S) + (z + w / S)) by (field; lra).
    (* w / S = - z up to rounding; bounded by g *)
    assert (P1 : Rabs ((y - x) * / S) <= / S).
    { rewrite Rabs_mult, (Rabs_pos_eq (/ S)) by lra. rewrite <- (Rmult_1_l (/ S)) at 2. apply Rmult_le_compat_r; lra. }
    assert (P2 : Rabs ((x - (r * S + w)) * / S) <= 4 * u * g).
    { rewrite Rabs_mult, (Rabs_pos_eq (/ S)) by lra. apply Rle_trans with (4 * u * g * S * / S); [apply Rmult_le_compat_r; lra|right; field; lra]. }
    assert (P3 : Rabs (b * S) <= 1 + 1.1 * u) by (abs B; apply Rabs_le; lra).
    assert (OS : Rabs (w / S) <= g) by exact HO.
    assert (Q1 : Rabs (b * S * ((y - x) * / S)) <= (1 + 1.1 * u) * / S) by (rewrite Rabs_mult; apply Rmult_le_compat; try apply Rabs_pos; assumption).
    assert (Q2 : Rabs (b * S * ((x - (r * S + w)) * / S)) <= (1 + 1.1 * u) * (4 * u * g)) by (rewrite Rabs_mult; apply Rmult_le_compat; try apply Rabs_pos; assumption).
    assert (Q3 : Rabs ((b * S - 1) * (r + w / S)) <= 1.1 * u * (2 * g)).
    { rewrite Rabs_mult. apply Rmult_le_compat; try apply Rabs_pos; [assumption|]. abs RA. abs OS. apply Rabs_le. lra. }
    abs Q1. abs Q2. abs Q3. abs Z.
    assert (1.1 * u * / S <= 1.1 * u * g) by (apply Rmult_le_compat_l; lra).
    assert ((1 + 1.1 * u) * (4 * u * g) <= 5 * u * g) by nra.
    assert (20 * u * g <= g * 1e-14) by (rewrite UV; lra).
    apply Rabs_le. lra.
  - destruct ST as [-> ->]. replace (B2R v * 1 + 0) with (B2R v) in E by ring. rewrite Rmult_1_r in E.
    assert (4 * u * g <= g * 5e-15) by (rewrite UV; lra).
    destruct t; try discriminate I.
    + assert (X : Rabs x <= g * (1 + 5e-15)). { abs E. abs RA. apply Rabs_le. lra. }
      pose proof (float_err x _ X) as C. change (IZR (2 ^ 24)) with 16777216 in *.
      change (IZR (2 ^ 150)) with (IZR 1427247692705959881058285969449495136382746624) in C.
      abs C. abs E. apply Rabs_le. lra.
    + cbn [converted]. abs E. apply Rabs_le. lra.
Qed.
