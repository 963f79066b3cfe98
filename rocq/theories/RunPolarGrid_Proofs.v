(** Proofs for C115. *)
From Coq Require Import List ZArith Reals Bool String Lra Lia Psatz.
From Flocq Require Import Core BinarySingleNaN.
From Verif Require Import Base BaseFacts Flt FltFacts Num Maths_Model Spheroid_Model Spheroid_Proofs Extrema_Model Extrema_Spec MakeMap_Model MakeMap_Spec MakeMap_Proofs
  Proj_Model Proj_Spec Proj_Proofs ProjGrid_Proofs OrthoGrid_Proofs OrthoGridR_Proofs Virtual_Model Virtual_Spec Virtual_Proofs VirtualPlane_Proofs Params_Model
  Fits_Model Fits_Spec Command_Model Command_Spec Command_Proofs Input_Model Entry_Model Entry_Proofs Parse_Model Parse_Spec Parse_Proofs
  Run_Model Run_Spec RunAngle_Proofs RunScale_Proofs Run_Proofs RunPlane_Proofs RunMercator_Spec RunMercator_Proofs RunGrid_Spec RunGrid_Proofs
  RunPolar_Spec RunPolar_Proofs RunPolarGrid_Spec.
Import ListNotations.
Open Scope R_scope.

#[local] Existing Instance prec53.
#[local] Existing Instance emax53.
Local Ltac abs H := apply Rabs_le_inv in H.
Local Notation rnd := (round radix2 (SpecFloat.fexp 53 1024) ZnearestE).
#[local] Instance valid53''' : Valid_exp (SpecFloat.fexp 53 1024) := fexp_correct 53 1024 eq_refl.

(** ** Dots of any grid *)
Section Dots.
Context (samples lines : Z) (S0 : (0 < samples)%Z) (L0 : (0 < lines)%Z) (Small : (samples * lines < 2 ^ 53)%Z).
Definition cell_of (c : Z * Z) : option Z :=
  let (k, i) := c in
  if (0 <=? i)%Z && (i <? samples)%Z && ((0 <=? k)%Z && (k <? lines)%Z) then Some (k * samples + i)%Z else None.
Lemma cell_of_spec c k i : (0 <= k < lines)%Z -> (0 <= i < samples)%Z -> cell_of c = Some (k * samples + i)%Z <-> c = (k, i).
Proof.
  intros Hk Hi. destruct c as [a b]. unfold cell_of.
  destruct (Z.leb_spec 0 b), (Z.ltb_spec b samples), (Z.leb_spec 0 a), (Z.ltb_spec a lines); cbn [andb];
    (split; intros E; [try discriminate|injection E as -> ->; try (exfalso; lia)]).
  - injection E as E. assert (a = k) by nia. subst a. f_equal. lia.
  - reflexivity.
Qed.

Context (lat lon : double) (a b : Z) (Ha : (0 < a < 2 ^ 40)%Z) (Hlat : is_1024 lat a) (Hb : (0 < b < 2 ^ 40)%Z) (Hlon : is_1024 lon b).
Context (T1 T2 : nat) (ring spoke : Z -> Z -> Z * Z) (lat_body lon_body : double -> list Z -> outcome (list Z)).
Context (Lat : forall j g, Z.of_nat (List.length g) = (samples * lines)%Z ->
  exists g', lat_body (latitude_at lat (j - 1)) g = Ok g' /\ painted g g' (fun q => exists t, (0 <= t < Z.of_nat T1)%Z /\ cell_of (ring j t) = Some q)).
Context (Lon : forall j g, Z.of_nat (List.length g) = (samples * lines)%Z ->
  exists g', lon_body (longitude_at lon j) g = Ok g' /\ painted g g' (fun q => exists t, (0 <= t < Z.of_nat T2)%Z /\ cell_of (spoke j t) = Some q)).

Lemma dots_drawn fuel g : make_grid samples lines (fun g => then_loop
    (for_loop fuel (fun n => a_lt ar_double n (a_of_Z ar_double 90)) (fun n => a_add ar_double n lat) lat_body (a_add ar_double (a_of_Z ar_double (-90)) lat) g)
    (for_loop fuel (fun m => a_lt ar_double (a_of_Z ar_double 0) m) (fun m => a_sub ar_double m lon) lon_body (a_of_Z ar_double 360))) = Some (Ok g) ->
  Z.of_nat (List.length g) = (samples * lines)%Z /\
  forall k i, (0 <= k < lines)%Z -> (0 <= i < samples)%Z ->
    let marked :=
      (exists j t, (1 <= j)%Z /\ -90 + IZR j * B2R lat < 90 /\ (0 <= t < Z.of_nat T1)%Z /\ ring j t = (k, i)) \/
      (exists j t, (0 <= j)%Z /\ 0 < 360 - IZR j * B2R lon /\ (0 <= t < Z.of_nat T2)%Z /\ spoke j t = (k, i)) in
    marked /\ nth_error g (Z.to_nat (k * samples + i)) = Some 255%Z \/
    ~ marked /\ nth_error g (Z.to_nat (k * samples + i)) = Some 0%Z.
Proof.
  intros H. unfold make_grid in H. set (g0 := repeat 0%Z _) in H.
  assert (W : wrap (samples * lines) = (samples * lines)%Z) by (apply wrap_id; unfold size_mod; nia).
  assert (B0 : Z.of_nat (List.length g0) = (samples * lines)%Z) by (unfold g0; rewrite repeat_length, W; nia).
  set (N1 := (184319 / a)%Z). assert (N10 : (0 <= N1)%Z) by (unfold N1; apply Z.div_pos; lia).
  set (N2 := (368639 / b + 1)%Z). assert (N20 : (0 <= N2)%Z). { unfold N2. assert (0 <= 368639 / b)%Z by (apply Z.div_pos; lia). lia. }
  destruct (for_loop_paints (fun n : double => a_lt ar_double n (a_of_Z ar_double 90)) (fun n => a_add ar_double n lat) lat_body
    (latitude_at lat) N1 (samples * lines) (fun j q => exists t, (0 <= t < Z.of_nat T1)%Z /\ cell_of (ring (j + 1) t) = Some q) N10)
    with (fuel := S (Z.to_nat N1)) (g := g0) as (g1 & E1 & P1).
  { intros j Hj. cbn [a_lt a_of_Z ar_double]. rewrite (lt_1024 _ _ _ _ (latitude_at_val lat a Ha Hlat j Hj) (int_1024 90 ltac:(lia))).
    destruct (Z.ltb_spec j N1) as [J|J].
    + apply (N_spec a Ha) in J. apply Z.ltb_lt. lia.
    + apply Z.ltb_ge. assert (~ ((j + 1) * a < 184320)%Z) by (rewrite <- (N_spec a Ha); fold N1; lia). lia. }
  { intros j Hj. apply (iterate_next (fun n => Bplus mode_NE n lat)). lia. }
  { intros j q. apply bounded_dec. intros t. apply opt_dec. }
  { intros j g' _ Hg'. destruct (Lat (j + 1) g' Hg') as (g'' & E & P). replace (j + 1 - 1)%Z with j in E by ring. now exists g''. }
  { lia. } { exact B0. }
  assert (B1 : Z.of_nat (List.length g1) = (samples * lines)%Z) by (destruct P1 as [-> _]; exact B0).
  destruct (for_loop_paints (fun m : double => a_lt ar_double (a_of_Z ar_double 0) m) (fun m => a_sub ar_double m lon) lon_body
    (longitude_at lon) N2 (samples * lines) (fun j q => exists t, (0 <= t < Z.of_nat T2)%Z /\ cell_of (spoke j t) = Some q) N20)
    with (fuel := S (Z.to_nat N2)) (g := g1) as (g2 & E2 & P2).
  { intros j Hj. cbn [a_lt a_of_Z ar_double]. rewrite (lt_1024 _ _ _ _ (int_1024 0 ltac:(lia)) (longitude_at_val lon b Hb Hlon j Hj)).
    destruct (Z.ltb_spec j N2) as [J|J].
    + apply (N_spec' b Hb) in J. apply Z.ltb_lt. lia.
    + apply Z.ltb_ge. assert (~ (j * b < 368640)%Z) by (rewrite <- (N_spec' b Hb); fold N2; lia). lia. }
  { intros j Hj. apply (iterate_next (fun m => Bminus mode_NE m lon)). lia. }
  { intros j q. apply bounded_dec. intros t. apply opt_dec. }
  { intros j g' _ Hg'. exact (Lon j g' Hg'). }
  { lia. } { exact B1. }
  match type of H with then_loop ?x _ = _ => destruct x as [x1|] eqn:Q1; [|discriminate] end.
  change (a_add ar_double (a_of_Z ar_double (-90)) lat) with (latitude_at lat 0) in Q1.
  apply (for_loop_more _ _ _ _ (Nat.max fuel (S (Z.to_nat N1))) (Nat.le_max_l _ _)) in Q1.
  apply (for_loop_more _ _ _ _ (Nat.max fuel (S (Z.to_nat N1))) (Nat.le_max_r _ _)) in E1.
  pose proof (eq_trans (eq_sym Q1) E1) as X1. injection X1 as ->. cbn [then_loop] in H.
  change (a_of_Z ar_double 360) with (longitude_at lon 0) in H.
  apply (for_loop_more _ _ _ _ (Nat.max fuel (S (Z.to_nat N2))) (Nat.le_max_l _ _)) in H.
  apply (for_loop_more _ _ _ _ (Nat.max fuel (S (Z.to_nat N2))) (Nat.le_max_r _ _)) in E2.
  pose proof (eq_trans (eq_sym H) E2) as X2. injection X2 as ->.
  assert (B2 : Z.of_nat (List.length g2) = (samples * lines)%Z) by (destruct P2 as [-> _]; exact B1).
  split; [exact B2|]. intros k i Hk Hi marked.
  assert (Hq : (0 <= k * samples + i < samples * lines)%Z) by nia.
  destruct P1 as [_ P1]. destruct P2 as [_ P2]. rewrite B1 in P2. rewrite B0 in P1.
  destruct (P1 _ Hq) as [P1a P1b]. destruct (P2 _ Hq) as [P2a P2b].
  assert (Bl : nth_error g0 (Z.to_nat (k * samples + i)) = Some 0%Z).
  { unfold g0. apply nth_error_repeat. rewrite W. lia. }
  rewrite Bl in P1b. unfold marked. clear marked.
  match type of P1a with ?X -> _ => match goal with |- (?Y \/ _) /\ _ \/ _ => assert (Row : X <-> Y) end end.
  { split.
    - intros (j & Hj & t & Ht & Hc). apply cell_of_spec in Hc; try assumption. exists (j + 1)%Z, t.
      destruct (proj1 (latitude_index lat a Ha Hlat (j + 1))) as [J1 J2]; [fold N1; lia|]. auto.
    - intros (j & t & J1 & J2 & Ht & Hc). exists (j - 1)%Z. split; [apply (latitude_index lat a Ha Hlat); auto|].
      exists t. split; [exact Ht|]. apply cell_of_spec; try assumption. now replace (j - 1 + 1)%Z with j by ring. }
  match type of P2a with ?X -> _ => match goal with |- (_ \/ ?Y) /\ _ \/ _ => assert (Col : X <-> Y) end end.
  { split.
    - intros (j & Hj & t & Ht & Hc). apply cell_of_spec in Hc; try assumption. exists j, t.
      destruct (proj1 (longitude_index lon b Hb Hlon j) Hj) as [J1 J2]. auto.
    - intros (j & t & J1 & J2 & Ht & Hc). exists j. split; [apply (longitude_index lon b Hb Hlon); auto|].
      exists t. split; [exact Ht|]. now apply cell_of_spec. }
  rewrite Row in P1a, P1b. rewrite Col in P2a, P2b.
  match goal with |- (?Y \/ ?Z) /\ _ \/ _ => set (rg := Y) in *; set (sp := Z) in * end.
  destruct (Classical_Prop.classic sp) as [C|C].
  - left. split; [now right|]. apply P2a, C.
  - rewrite P2b by exact C. destruct (Classical_Prop.classic rg) as [D|D].
    + left. split; [now left|]. apply P1a, D.
    + right. split; [tauto|]. apply P1b, D.
Qed.
End Dots.

(** ** The dots of polar maps *)
Section Polar.
Context (L : libm ar_double) (HL : rounds_to_integer L) (samples lines : Z).
Context (S0 : (0 < samples)%Z) (L0 : (0 < lines)%Z) (Small : (samples * lines < 2 ^ 53)%Z).

Definition dot_cell (pix rho mm : double) : Z * Z :=
  (row_of (Bplus mode_NE (Bdiv mode_NE (Bmult mode_NE rho (l_cos L mm)) pix) (Bdiv mode_NE (double_of_Z lines) (double_of_Z 2))),
   row_of (Bplus mode_NE (Bdiv mode_NE (Bmult mode_NE rho (l_sin L mm)) pix) (Bdiv mode_NE (double_of_Z samples) (double_of_Z 2)))).
Lemma polar_dot_drawn pix rho mm g : Z.of_nat (List.length g) = (samples * lines)%Z ->
  exists g', polar_dot (A := ar_double) L samples lines pix rho mm g = Ok g' /\
    painted g g' (fun q => cell_of samples lines (dot_cell pix rho mm) = Some q).
Proof.
  intros Hg. unfold polar_dot. cbv zeta. unfold dot_cell. cbn [a_add a_div a_mul ar_double].
  set (z := Bplus mode_NE (Bdiv mode_NE (Bmult mode_NE rho (l_cos L mm)) pix) _). set (x := Bplus mode_NE (Bdiv mode_NE (Bmult mode_NE rho (l_sin L mm)) pix) _).
  rewrite <- andb_assoc. change (a_of_Z ar_double 2) with (double_of_Z 2) in *.
  match goal with |- context [l_round L ?y] => change y with z end.
  match goal with |- context [a_lt ar_double (l_round L ?y) (a_of_Z ar_double samples)] => change y with x end.
  rewrite !rounded_row by (try assumption; nia). unfold cell_of.
  destruct ((0 <=? row_of x)%Z && (row_of x <? samples)%Z) eqn:Ex; cbn [andb].
  2: { exists g. split; [reflexivity|]. apply painted_none. intros q _ H. discriminate H. }
  destruct ((0 <=? row_of z)%Z && (row_of z <? lines)%Z) eqn:Ez; cbn [andb].
  2: { exists g. split; [reflexivity|]. apply painted_none. intros q _ H. discriminate H. }
  apply andb_prop in Ex. apply andb_prop in Ez. destruct Ex as [X0 X1]. destruct Ez as [Z0 Z1].
  apply Z.leb_le in X0, Z0. apply Z.ltb_lt in X1, Z1.
  assert (G : forall y : double, (0 <= row_of y)%Z -> is_finite (l_round L y : double) = true /\ B2R (l_round L y : double) = IZR (row_of y)).
  { intros y Hy. unfold row_of in *. destruct (is_finite y) eqn:Fy; [|lia]. now apply rounded_finite. }
  destruct (G z Z0) as [Fz Vz]. destruct (G x X0) as [Fx Vx].
  rewrite (size_of_int _ _ Fz Vz ltac:(nia)), (size_of_int _ _ Fx Vx ltac:(nia)). cbn [bind].
  rewrite (wrap_id (row_of z * samples)) by (unfold size_mod; nia). rewrite wrap_id by (unfold size_mod; nia).
  destruct (put_painted g (row_of z * samples + row_of x)) as (g' & E' & P); [rewrite Hg; nia|]. exists g'. split; [exact E'|].
  eapply painted_ext; [exact P|]. intros q _. split; [intros ->; reflexivity|now intros [= ->]].
Qed.
End Polar.

(** ** Where the dots are *)
Lemma dot_near (rim rho c : double) n w : (0 < n < 2 ^ 53)%Z -> (0 < w < 2 ^ 53)%Z ->
  is_finite rim = true -> 1e-3 <= B2R rim <= 1e12 -> is_finite rho = true -> Rabs (B2R rho) <= 1e13 * B2R rim ->
  is_finite c = true -> Rabs (B2R c) <= 1 ->
  let pix := Bdiv mode_NE (Bmult mode_NE (double_of_Z 2) rim) (double_of_Z n) in
  let y := Bplus mode_NE (Bdiv mode_NE (Bmult mode_NE rho c) pix) (Bdiv mode_NE (double_of_Z w) (double_of_Z 2)) in
  is_finite y = true /\
  Rabs (B2R y - (IZR w / 2 + B2R rho * B2R c * IZR n / (2 * B2R rim))) <= (IZR w + Rabs (B2R rho) * IZR n / (2 * B2R rim)) * 1e-15.
Proof.
  intros N W Fr Br Fh Bh Fc Bc. cbv zeta.
  destruct (double_of_Z_exact n ltac:(lia)) as [Fn En]. destruct (double_of_Z_exact 2 ltac:(lia)) as [F2 E2].
  destruct (double_of_Z_exact w ltac:(lia)) as [Fw Ew].
  assert (Nr : 1 <= IZR n <= 9007199254740992) by (split; apply IZR_le; lia).
  assert (Wr : 1 <= IZR w <= 9007199254740992) by (split; apply IZR_le; lia).
  set (r := B2R rim) in *. set (m := IZR n) in *. set (v := IZR w) in *. set (h := B2R rho) in *. set (k := B2R c) in *.
  pose proof u_value as UV. pose proof u_bounds as U. pose proof eta_small as [T0 T].
  assert (T' : eta <= 1e-55).
  { eapply Rle_trans; [exact T|]. apply Rle_trans with (/ IZR (10 ^ 55)).
    - apply Rinv_le; [apply IZR_lt; reflexivity|apply IZR_le; vm_compute; discriminate].
    - change (10 ^ 55)%Z with 10000000000000000000000000000000000000000000000000000000%Z. lra. }
  destruct (mult_round (double_of_Z 2) rim F2 Fr) as [Fa Ea]. { apply rnd_small with 4e12; [|lra]. rewrite E2. fold r. apply Rabs_le. lra. }
  rewrite E2 in Ea. fold r in Ea. set (a := Bmult mode_NE (double_of_Z 2) rim) in *.
  assert (Da : Rabs (B2R a - 2 * r) <= (2 * r) * ((0 + 1.1) * u)).
  { rewrite Ea. apply rel_step; [lra|lra|]. rewrite Rminus_eq_0, Rabs_R0. lra. }
  assert (IW : / 9007199254740992 <= / m <= 1).
  { split; [apply Rinv_le; lra|]. rewrite <- Rinv_1. apply Rinv_le; lra. }
  set (P := 2 * r * / m). assert (RP : 2e-19 <= P <= 2e12).
  { unfold P. split; [apply Rle_trans with (2e-3 * / 9007199254740992); [lra|apply Rmult_le_compat; lra]|].
    apply Rle_trans with (2e12 * 1); [apply Rmult_le_compat; lra|lra]. }
  assert (Db : Rabs (B2R a / m - P) <= P * ((0 + 1.1) * u)).
  { replace (B2R a / m - P) with ((B2R a - 2 * r) * / m) by (unfold P; field; lra). rewrite Rabs_mult, (Rabs_pos_eq (/ m)) by lra.
    replace (P * ((0 + 1.1) * u)) with (2 * r * ((0 + 1.1) * u) * / m) by (unfold P; ring). apply Rmult_le_compat_r; lra. }
  destruct (div_round a (double_of_Z n) Fa) as [Fb Eb].
  { rewrite En. fold m. lra. }
  { rewrite En. fold m. apply rnd_small with 4e12; [|lra]. abs Db. apply Rabs_le. nra. }
  rewrite En in Eb. fold m in Eb. set (p := Bdiv mode_NE a (double_of_Z n)) in *.
  pose proof (rel_step _ P (0 + 1.1) ltac:(lra) ltac:(lra) Db) as Dp. rewrite <- Eb in Dp.
  set (q := B2R p) in *. assert (Pq : P * 0.9999 <= q) by (abs Dp; nra).
  set (M := Rabs h * / P). pose proof (Rabs_pos h) as H0.
  assert (IP : 0 < / P) by (apply Rinv_0_lt_compat; lra). assert (IQ : 0 < / q) by (apply Rinv_0_lt_compat; lra).
  assert (M0 : 0 <= M) by (apply Rmult_le_pos; lra).
  assert (IPe : / P = m * / (2 * r)) by (unfold P; field; lra).
  assert (MB : M <= 5e28).
  { unfold M. rewrite IPe. apply Rle_trans with (1e13 * r * (9007199254740992 * / (2 * r))).
    - apply Rmult_le_compat; [lra| |lra|].
      + rewrite <- IPe. lra.
      + apply Rmult_le_compat_r; [|lra]. left. apply Rinv_0_lt_compat. lra.
    - replace (1e13 * r * (9007199254740992 * / (2 * r))) with (1e13 * 9007199254740992 / 2) by (field; lra). lra. }
  assert (Xb : Rabs (h * k) <= Rabs h) by (rewrite Rabs_mult; rewrite <- (Rmult_1_r (Rabs h)) at 2; apply Rmult_le_compat_l; lra).
  destruct (mult_near rho c (Rabs h) Fh Fc Xb) as [Fz Ez]; [lra|]. fold h in Ez. fold k in Ez.
  set (z := Bmult mode_NE rho c) in *.
  assert (IQP : / q <= / P * 1.001).
  { apply Rmult_le_reg_r with q; [lra|]. rewrite Rinv_l by lra. replace (/ P * 1.001 * q) with (q * 1.001 * / P) by ring.
    apply Rle_trans with (P * 0.9999 * 1.001 * / P); [replace (P * 0.9999 * 1.001 * / P) with (0.9999 * 1.001) by (field; lra); lra|].
    apply Rmult_le_compat_r; lra. }
  assert (IPB : / P <= 1e19). { apply Rle_trans with (/ 2e-19); [apply Rinv_le; lra|lra]. }
  assert (Dq : Rabs (B2R z / q - h * k * / P) <= M * (3.3 * u) + 1e-30).
  { replace (B2R z / q - h * k * / P) with ((B2R z - h * k) * / q + h * k * / P * ((P - q) * / q)) by (field; lra).
    eapply Rle_trans; [apply Rabs_triang|]. rewrite !Rabs_mult, (Rabs_pos_eq (/ q)), (Rabs_pos_eq (/ P)) by lra.
    assert (X1 : Rabs (B2R z - h * k) * / q <= (Rabs h * u + eta) * (/ P * 1.001)) by (apply Rmult_le_compat; try apply Rabs_pos; lra).
    assert (X2 : eta * (/ P * 1.001) <= 1e-31) by (apply Rle_trans with (1e-55 * (1e19 * 1.001)); [apply Rmult_le_compat; lra|lra]).
    assert (X3 : Rabs (P - q) * / q <= 2.25 * u).
    { rewrite Rabs_minus_sym. apply Rle_trans with (P * ((0 + 1.1 + 1.1) * u) * (/ P * 1.001)); [apply Rmult_le_compat; try apply Rabs_pos; lra|].
      assert (Cn : forall x y, P * x * (/ P * y) = x * y) by (intros; field; lra). rewrite Cn. lra. }
    assert (X4 : Rabs h * Rabs k * / P <= M).
    { unfold M. apply Rmult_le_compat_r; [lra|]. rewrite <- Rabs_mult. exact Xb. }
    assert (X5 : Rabs h * Rabs k * / P * (Rabs (P - q) * / q) <= M * (2.25 * u)).
    { apply Rmult_le_compat; try assumption; [|apply Rmult_le_pos; [apply Rabs_pos|lra]].
      apply Rmult_le_pos; [apply Rmult_le_pos; apply Rabs_pos|lra]. }
    replace ((Rabs h * u + eta) * (/ P * 1.001)) with (M * (1.001 * u) + eta * (/ P * 1.001)) in X1 by (unfold M; ring). nra. }
  assert (HK : Rabs (h * k * / P) <= M).
  { rewrite Rabs_mult, (Rabs_pos_eq (/ P)) by lra. unfold M. apply Rmult_le_compat_r; lra. }
  assert (MU : M * u <= M * 1e-9) by (apply Rmult_le_compat_l; lra). assert (MU0 : 0 <= M * u) by (apply Rmult_le_pos; lra).
  destruct (div_near z p (M * 1.01 + 1e-20) Fz) as [Fs Es]; [fold q; lra|fold q; abs Dq; abs HK; apply Rabs_le; lra|lra|].
  fold q in Es. set (s := Bdiv mode_NE z p) in *.
  assert (Dd : is_number (Bdiv mode_NE (double_of_Z w) (double_of_Z 2)) (v / 2)).
  { destruct (div_round (double_of_Z w) (double_of_Z 2) Fw) as [F E]; rewrite ?Ew, ?E2 in *; try lra.
    - unfold v. rewrite exact_half by lia. apply small_half. lia.
    - split; [exact F|]. rewrite E. unfold v. apply exact_half. lia. }
  destruct Dd as [Fd Ed]. set (d := Bdiv mode_NE (double_of_Z w) _) in *.
  assert (Ss : Rabs (B2R s - h * k * / P) <= M * (4.4 * u) + 1e-20).
  { abs Es. abs Dq. apply Rabs_le. nra. }
  destruct (plus_near s d (M * 1.02 + v / 2 + 1e-19) Fs Fd) as [Fy Ey]; [rewrite Ed; abs Ss; abs HK; apply Rabs_le; lra|lra|].
  rewrite Ed in Ey. split; [exact Fy|].
  replace (h * k * m / (2 * r)) with (h * k * / P) by (rewrite IPe; field; lra).
  replace (Rabs h * m / (2 * r)) with M by (unfold M; rewrite IPe; field; lra).
  assert (Fin : Rabs (B2R (Bplus mode_NE s d) - (v / 2 + h * k * / P)) <= M * (5.6 * u) + v * u + 1e-18).
  { abs Ey. abs Ss. apply Rabs_le. nra. }
  eapply Rle_trans; [exact Fin|]. assert (M * (5.6 * u) <= M * 1e-15) by (apply Rmult_le_compat_l; [lra|rewrite UV; lra]).
  assert (v * u <= v * 2e-16) by (apply Rmult_le_compat_l; [lra|rewrite UV; lra]). lra.
Qed.

Lemma slice_turned t : (0 <= t < 2000)%Z ->
  turned (Bmult mode_NE (Bmult mode_NE (Bdiv mode_NE (double_of_Z t) (double_of_Z 2000)) d_degree) (double_of_Z 360)) (slice t).
Proof.
  intros Ht. destruct (double_of_Z_exact t ltac:(lia)) as [Ft Et]. destruct (double_of_Z_exact 2000 ltac:(lia)) as [F2 E2].
  destruct (double_of_Z_exact 360 ltac:(lia)) as [F3 E3]. destruct degree_val as [FD DV]. pose proof u_value as UV. pose proof eta_u as T. pose proof eta_small as [T0 _].
  assert (R : 0 <= IZR t <= 2000) by (split; apply IZR_le; lia). set (D := B2R d_degree) in *. unfold turned, slice. fold D.
  destruct (div_near (double_of_Z t) (double_of_Z 2000) 1 Ft) as [Fa Ea]; rewrite ?Et, ?E2; [lra|apply Rabs_le; lra|lra|].
  rewrite Et, E2 in Ea. set (a := Bdiv mode_NE (double_of_Z t) _) in *.
  assert (Va : Rabs (B2R a * D - IZR t / 2000 * D) <= u * 0.02).
  { rewrite <- Rmult_minus_distr_r, Rabs_mult, (Rabs_pos_eq D) by lra. apply Rle_trans with ((1 * u + eta) * D); [apply Rmult_le_compat_r; lra|nra]. }
  assert (Q : 0 <= IZR t / 2000 * D <= 0.018) by (split; [apply Rmult_le_pos; lra|nra]).
  destruct (mult_near a d_degree 0.02 Fa FD) as [Fb Eb]; [fold D; abs Va; apply Rabs_le; lra|lra|]. fold D in Eb. set (b := Bmult mode_NE a d_degree) in *.
  destruct (mult_near b (double_of_Z 360) 8 Fb F3) as [Fc Ec]; [rewrite E3; abs Eb; abs Va; apply Rabs_le; lra|lra|]. rewrite E3 in Ec.
  split; [exact Fc|]. replace (IZR t * 360 / 2000 * D) with (IZR t / 2000 * D * 360) by field. abs Ec. abs Eb. abs Va. apply Rabs_le. rewrite UV in *. lra.
Qed.
Lemma degrees_turned (x : double) z : is_1024 x z -> (0 < z <= 368640)%Z -> turned (Bmult mode_NE x d_degree) (IZR z / 1024).
Proof.
  intros [F E] Z. destruct degree_val as [FD DV]. pose proof u_value as UV. pose proof eta_u as T.
  assert (R : 0 <= IZR z <= 368640) by (split; apply IZR_le; lia). destruct (mult_near x d_degree 8 F FD) as [Fb Eb].
  - rewrite E, Rabs_mult, !Rabs_pos_eq by lra. nra.
  - lra.
  - split; [exact Fb|]. rewrite E in Eb. eapply Rle_trans; [exact Eb|]. rewrite UV in *. lra.
Qed.

Lemma no_number (x y p z : double) : is_finite x = false -> is_finite z = true ->
  is_finite (Bplus mode_NE (Bdiv mode_NE (Bmult mode_NE x y) p) z) = false.
Proof.
  intros Hx Hz. assert (Hm : is_finite (Bmult mode_NE x y) = false).
  { destruct x as [s|s| |s m e H]; try discriminate Hx; destruct y as [t|t| |t m' e' H']; reflexivity. }
  set (v := Bmult mode_NE x y) in *. clearbody v. assert (Hd : is_finite (Bdiv mode_NE v p) = false).
  { destruct v as [s|s| |s m e H]; try discriminate Hm; destruct p as [t|t| |t m' e' H']; reflexivity. }
  set (q := Bdiv mode_NE v p) in *. clearbody q.
  destruct q as [s|s| |s m e H]; try discriminate Hd; destruct z as [t|t| |t m' e' H']; try discriminate Hz; reflexivity.
Qed.

Section Placed.
Context (L : libm ar_double) (samples lines : Z) (S0 : (0 < samples)%Z) (L0 : (0 < lines)%Z) (Small : (samples * lines < 2 ^ 53)%Z).
Lemma placed (rim rho mm : double) :
  let pix := Bdiv mode_NE (Bmult mode_NE (double_of_Z 2) rim) (double_of_Z (Z.min (wrap (samples - 1)) (wrap (lines - 1)))) in
  dot_at (l_cos L mm) (l_sin L mm) rim rho samples lines (dot_cell L samples lines pix rho mm).
Proof.
  intros pix. assert (Ss : (samples < 2 ^ 53)%Z) by nia. assert (Sl : (lines < 2 ^ 53)%Z) by nia.
  assert (G : forall w, (0 < w < 2 ^ 53)%Z -> is_finite (Bdiv mode_NE (double_of_Z w) (double_of_Z 2)) = true).
  { intros w W. destruct (double_of_Z_exact w ltac:(lia)) as [Fw Ew]. destruct (double_of_Z_exact 2 ltac:(lia)) as [F2 E2].
    destruct (div_round (double_of_Z w) (double_of_Z 2) Fw) as [F _]; rewrite ?Ew, ?E2; [lra| |exact F].
    rewrite exact_half by lia. apply small_half. lia. }
  split.
  - intros Fr. unfold dot_cell, row_of. rewrite !(no_number rho) by (try assumption; apply G; lia). reflexivity.
  - intros Fr Fm Bm Bh S2 L2 cells. unfold pix. rewrite !wrap_id by (unfold size_mod; lia).
    set (n := Z.min (samples - 1) (lines - 1)). assert (N : (0 < n < 2 ^ 53)%Z) by (unfold n; lia).
    split; intros Fc Bc; unfold dot_cell, row_of; cbn [fst snd].
    + destruct (dot_near rim rho (l_cos L mm) n lines N ltac:(lia) Fm Bm Fr Bh Fc Bc) as [Fy Ey]. cbv zeta in Fy, Ey. rewrite Fy.
      apply about_near. exact Ey.
    + destruct (dot_near rim rho (l_sin L mm) n samples N ltac:(lia) Fm Bm Fr Bh Fc Bc) as [Fy Ey]. cbv zeta in Fy, Ey. rewrite Fy.
      apply about_near. exact Ey.
Qed.
End Placed.

(** ** From the text *)
Theorem polar_grid_in_file X fuel status left_over removable u d ts cmds n e o :
  ieee X -> rounds_to_integer (x_libm X) -> (forall n, status n = 0%Z) -> in_force u d ->
  unmixed ts -> commands_of X (texts u ts) = Ok (Some cmds) -> nth_error (maps_of ts) n = Some e -> me_projection e = T_p_stereo o ->
  exists m b, nth_error cmds n = Some m /\ body_spheroid (me_prograde e) (me_radii e) = Ok b /\
  forall lat lon c w w' r, grid_says d e = Some (Some (lat, lon)) -> grid_step lat -> grid_step lon ->
  fits_size m -> (mc_samples m * mc_lines m < 2 ^ 53)%Z ->
  command_of X fuel m = Some c -> execute status left_over removable c w = (w', Ok r) ->
  exists edge h cards dd ring spoke, edge_says X b o edge /\
    w_file w' = new_file [h; Hdu U8 (image_axes (mc_samples m) (mc_lines m) 1) cards dd] /\
    dotted (mc_samples m) (mc_lines m) (B2R lat) (B2R lon) ring spoke dd /\
    let radius := stereo_rho_impl (A := ar_double) (x_libm X) (x_eccentricity X b)
                    (rho_coefficient (A := ar_double) (x_libm X) (Spheroid_Model.eq_rad b) (x_eccentricity X b)) in
    let rim : double := radius (seen_at (pole_says o) (x_graphic X b edge)) in
    rings_follow (x_libm X) radius (x_graphic X b) (pole_says o) rim (mc_samples m) (mc_lines m) (B2R lat) ring /\
    spokes_follow (x_libm X) radius (pole_says o) rim (mc_samples m) (mc_lines m) (B2R lon) spoke.
Proof.
  intros I HL St F U C N P. destruct (entry_command X u ts cmds n e U C N) as (d' & m & b & Hd & Hm & FI & Hb & Pm & Hg & _).
  rewrite (force_defaults u d F) in Hd. injection Hd as <-.
  exists m, b. do 2 (split; [assumption|]). intros lat lon c w w' r Gs Sla Slo Fs Sm Co Ex.
  rewrite Hg in Gs. injection Gs as Gs. assert (Fs' := Fs). destruct Fs' as (S1 & S2 & _).
  destruct (polar_projection X b o (mc_projection m)) as (x & Px & Ox). { rewrite <- P. exact Pm. }
  destruct Sla as (Fa & a & Ha & Ea). destruct Slo as (Fo & a' & Hb' & Eb).
  assert (Ia : is_1024 lat a) by (split; assumption). assert (Io : is_1024 lon a') by (split; assumption).
  destruct (grid_of X fuel (mc_projection m) (mc_samples m) (mc_lines m) lat lon) as [g|] eqn:Gg.
  2: { exfalso. unfold command_of in Co. destruct (calls_of X _ _ _) as [calls [o'| |]]; try discriminate. rewrite Gs, Gg in Co. discriminate. }
  destruct (grid_written X fuel status left_over removable m c w w' r g lat lon St Fs Sm Gs Co Ex Gg) as (l & h & cards & dd & -> & Ew & El).
  rewrite Px in Gg. unfold grid_of in Gg.
  destruct (polar_new (x_libm X) x (pole_says o)) as [q| |] eqn:Q; try discriminate.
  assert (Nq : ps_north q = pole_says o) by (unfold polar_new in Q; destruct (_ && _); [discriminate|]; apply Ok_inj in Q; now subst q).
  set (samples := mc_samples m) in *. set (lines := mc_lines m) in *.
  set (radius := stereo_rho_impl (A := ar_double) (x_libm X) (x_eccentricity X b)
                    (rho_coefficient (A := ar_double) (x_libm X) (Spheroid_Model.eq_rad b) (x_eccentricity X b))).
  set (rim := radius (seen_at (pole_says o) (x_graphic X b (ps_max_lat q)))).
  set (pix := Bdiv mode_NE (Bmult mode_NE (double_of_Z 2) rim) (double_of_Z (Z.min (wrap (samples - 1)) (wrap (lines - 1))))).
  set (slc := fun t => Bmult mode_NE (Bmult mode_NE (Bdiv mode_NE (double_of_Z t) (double_of_Z 2000)) d_degree) (double_of_Z 360)).
  set (ring := fun j t => dot_cell (x_libm X) samples lines pix (radius (seen_at (pole_says o) (x_graphic X b (Bmult mode_NE (latitude_at lat (j - 1)) d_degree)))) (slc t)).
  set (spoke := fun j t => dot_cell (x_libm X) samples lines pix (radius (seen_at (pole_says o) (slc t))) (Bmult mode_NE (longitude_at lon j) d_degree)).
  exists (ps_max_lat q), h, cards, dd, ring, spoke.
  split; [exact (edge_made X b o x q _ I Q Ox)|]. split; [exact Ew|].
  split; [|split].
  - unfold polar_plot_grid in Gg. rewrite (i_degree X I) in Gg. destruct q as [el nq]. cbn [ps_north] in Nq. subst nq. cbn [ps_max_lat] in rim.
    set (L := x_libm X) in *.
    assert (Dot : forall (rho : Z -> double) (mm : Z -> double) g, Z.of_nat (List.length g) = (samples * lines)%Z ->
      exists g', dots polar_imax (fun t => polar_dot (A := ar_double) L samples lines pix (rho t) (mm t)) 0 g = Ok g' /\
        painted g g' (fun q => exists t, (0 <= t < Z.of_nat polar_imax)%Z /\ cell_of samples lines (dot_cell L samples lines pix (rho t) (mm t)) = Some q)).
    { intros rho mm g Hg'. apply dots_paint with (len := (samples * lines)%Z); [intros; apply opt_dec| |exact Hg'].
      intros t g0 _ Hg0. now apply polar_dot_drawn. }
    destruct (dots_drawn samples lines S1 S2 Sm lat lon a a' Ha Ia Hb' Io polar_imax polar_imax ring spoke
      (fun n => dots polar_imax (fun t => polar_dot (A := ar_double) L samples lines pix (radius (seen_at (pole_says o) (x_graphic X b (Bmult mode_NE n d_degree)))) (slc t)) 0)
      (fun m => dots polar_imax (fun t => polar_dot (A := ar_double) L samples lines pix (radius (seen_at (pole_says o) (slc t))) (Bmult mode_NE m d_degree)) 0))
      with (fuel := fuel) (g := l) as [Len Dr].
    + intros j g Hg'. exact (Dot (fun _ => _) slc g Hg').
    + intros j g Hg'. exact (Dot (fun t => radius (seen_at (pole_says o) (slc t))) (fun _ => _) g Hg').
    + exact Gg.
    + change (Z.of_nat polar_imax) with 2000%Z in Dr. intros k i Hk Hi. rewrite (El Len k i Hk Hi).
      destruct (Dr k i Hk Hi) as [[D ->]|[D ->]]; [left|right]; (split; [exact D|reflexivity]).
  - intros j t J0 J Ht. destruct (RunGrid_Proofs.latitude_value lat (conj Fa (ex_intro _ a (conj Ha Ea))) j J0 J) as (z & [Fz Ez] & _ & E).
    exists (latitude_at lat (j - 1)), (slc t). split; [split; [exact Fz|now rewrite Ez]|]. split; [now apply slice_turned|]. now apply placed.
  - intros j t J0 J Ht. destruct (RunGrid_Proofs.longitude_value lon (conj Fo (ex_intro _ a' (conj Hb' Eb))) j J0 J) as (z & Iz & Bz & E).
    exists (Bmult mode_NE (longitude_at lon j) d_degree), (slc t). split; [rewrite <- E; now apply degrees_turned|]. split; [now apply slice_turned|]. now apply placed.
Qed.
