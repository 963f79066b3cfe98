(** Proofs about the surface point placed in the middle of an orthographic map
    (C86). *)
From Coq Require Import List ZArith Reals Lra Lia Bool Psatz.
From Flocq Require Import Core BinarySingleNaN.
From Verif Require Import Base BaseFacts Num LinAlg_Model Maths_Model Maths_Spec Maths_Proofs
  Spheroid_Model Spheroid_Spec Spheroid_Proofs Proj_Model Proj_Spec Proj_Proofs Ortho_Model Ortho_Spec Ortho_Proofs.
Import ListNotations.
Open Scope R_scope.

Lemma cos_le_iff s w : 0 <= s <= PI -> 0 <= w <= PI -> (cos w <= cos s <-> s <= w).
Proof.
  intros Hs Hw. split; intros H.
  - destruct (Rle_lt_dec s w); [assumption|]. exfalso. assert (cos s < cos w); [|lra]. apply cos_decreasing_1; lra.
  - destruct (Req_dec s w) as [->|]; [lra|]. left. apply cos_decreasing_1; lra.
Qed.

Lemma cos_ge t w : 0 <= w <= PI -> 0 <= t <= 2 * PI -> (cos w <= cos t <-> t <= w \/ 2 * PI - t <= w).
Proof.
  intros Hw Ht. destruct (Rle_lt_dec t PI) as [H|H].
  - rewrite cos_le_iff by lra. split; [auto|intros [|]; lra].
  - assert (E : cos t = cos (2 * PI - t)).
    { rewrite cos_minus, cos_2PI, sin_2PI. ring. }
    rewrite E, cos_le_iff by lra. split; [auto|intros [|]; lra].
Qed.

(** One correction by a full circle suffices for longitudes in [0, 2 pi]. *)
Definition corrected (lower upper x : R) : R :=
  if Rlt_bool x lower then x + 2 * PI else if Rlt_bool upper x then x - 2 * PI else x.
Lemma corrected_in lam w x : 0 <= w <= PI -> 0 <= lam <= 2 * PI -> 0 <= x <= 2 * PI ->
  (lam - w <= corrected (lam - w) (lam + w) x <= lam + w <-> cos w <= cos (lam - x)).
Proof.
  intros Hw Hl Hx. unfold corrected.
  assert (Sym : cos (lam - x) = cos (x - lam)) by (rewrite <- cos_neg; f_equal; ring).
  destruct (Rlt_bool_spec x (lam - w)); [|destruct (Rlt_bool_spec (lam + w) x)].
  - rewrite cos_ge by lra. split; [intros; right; lra|intros [|]; lra].
  - rewrite Sym, cos_ge by lra. split; [intros; right; lra|intros [|]; lra].
  - split; [intros _|intros _; lra]. destruct (Rle_lt_dec x lam).
    + apply cos_ge; [lra|lra|left; lra].
    + rewrite Sym. apply cos_ge; [lra|lra|left; lra].
Qed.

Section Visible.
Variables (low : R) (pro : bool) (eq pol : R).
Hypothesis Hpol : 0 < pol.
Hypothesis Hle : pol <= eq.
Local Notation L := (libm_num PI low).
Local Notation K := ((eq / pol) * (eq / pol)).

(** The normal of a surface point against the direction of the observer. *)
Lemma facing_iff phi lam lat lon P : - (PI / 2) < phi < PI / 2 -> - (PI / 2) < lat < PI / 2 ->
  has_position pro P lat lon ->
  (facing eq pol pro phi lam P <-> 0 <= cos (lam - lon) + K * tan lat * tan phi).
Proof.
  intros Hp Hl (r & Hr & ->). unfold facing, inner, gradient, toward, spherical, vget. cbn [sum_to nth].
  assert (Cp : 0 < cos phi) by (apply cos_gt_0; lra). assert (Cl : 0 < cos lat) by (apply cos_gt_0; lra).
  assert (Cd : cos (lam - lon) = cos (east pro lon - east pro lam)).
  { unfold east. destruct pro; [f_equal; ring|]. rewrite <- cos_neg. f_equal. ring. }
  rewrite Cd. set (E := east pro lam). set (l := east pro lon).
  match goal with |- 0 <= ?i <-> 0 <= ?j => assert (H : i = r * cos lat * cos phi / (eq * eq) * j) end.
  { rewrite cos_minus. unfold tan. field. repeat split; lra. }
  rewrite H. assert (0 < r * cos lat * cos phi / (eq * eq)).
  { apply Rdiv_lt_0_compat; [|nra]. apply Rmult_lt_0_compat; [|assumption]. now apply Rmult_lt_0_compat. }
  split; intros; nra.
Qed.

Lemma visible_spec phi lam lat lon : - (PI / 2) < phi < PI / 2 -> - (PI / 2) < lat < PI / 2 ->
  0 <= lam <= 2 * PI -> 0 <= lon <= 2 * PI ->
  let r := visible_longitude (A := ar_num) L num_acos (Num eq : ar_num) (Num pol : ar_num)
     (Num phi : ar_num) (Num lam : ar_num) (Num lat : ar_num) (Num lon : ar_num) false in
  (0 <= cos (lam - lon) + K * tan lat * tan phi -> exists v, r = Ok v) /\
  (cos (lam - lon) + K * tan lat * tan phi < 0 -> r = Throw invalid_argument).
Proof.
  intros Hp Hl Hlam Hlon r. unfold r, visible_longitude. pose proof PI_RGT_0 as Ppi.
  assert (Cp : cos phi <> 0) by (apply Rgt_not_eq, cos_gt_0; lra).
  assert (Cl : cos lat <> 0) by (apply Rgt_not_eq, cos_gt_0; lra).
  nums. rewrite num_divide by lra. nums. rewrite (Req_bool_true 2 2 eq_refl).
  rewrite (Req_bool_false (cos lat) 0 Cl), (Req_bool_false (cos phi) 0 Cp). nums.
  set (q := K * tan lat * tan phi) in *.
  pose proof (COS_bound (lam - lon)) as Bc. cbn [negb andb].
  destruct (Rlt_bool_spec q (-1)) as [Q|Q]; [split; [intros; lra|reflexivity]|].
  unfold neg. nums. rewrite Rminus_0_l.
  assert (G : exists w, 0 <= w <= PI /\ (cos w <= cos (lam - lon) <-> 0 <= cos (lam - lon) + q) /\
    (if a_le ar_num (Num (Rabs q) : ar_num) (Num 1 : ar_num)
     then num_abs (num_acos (Num (- q))) else Num PI) = Num w).
  { unfold a_le. nums. cbn [negb andb].
    destruct (Rlt_bool_spec 1 (Rabs q)) as [B|B].
    - exists PI. split; [lra|]. split; [|reflexivity]. rewrite cos_PI.
      assert (1 < q). { unfold Rabs in B. destruct (Rcase_abs q); lra. }
      split; intros; lra.
    - apply Rabs_le_inv in B. exists (acos (- q)). pose proof (acos_bound (- q)).
      split; [lra|]. split.
      + rewrite cos_acos by lra. split; intros; lra.
      + cbn [negb]. unfold num_acos. nums. rewrite !Rle_bool_true by lra. cbn [andb num_abs].
        rewrite Rabs_pos_eq by lra. reflexivity. }
  destruct G as (w & Hw & Iff & Es).
  match goal with |- context [a_sub ar_num _ (if ?b then ?x else ?y)] => idtac | _ => idtac end.
  match goal with |- context [if a_le ar_num ?x ?y then num_abs ?z else Num PI] =>
    change (if a_le ar_num x y then num_abs z else Num PI) with (if a_le ar_num (Num (Rabs q) : ar_num) (Num 1 : ar_num)
     then num_abs (num_acos (Num (- q))) else Num PI) end.
  rewrite Es. nums.
  assert (Cor : (if Rlt_bool lon (lam - w) then Num (lon + 2 * PI) else if Rlt_bool (lam + w) lon then Num (lon - 2 * PI) else Num lon)
    = Num (corrected (lam - w) (lam + w) lon)).
  { unfold corrected. destruct (Rlt_bool lon (lam - w)); [reflexivity|]. destruct (Rlt_bool (lam + w) lon); reflexivity. }
  rewrite Cor. nums.
  pose proof (corrected_in lam w lon Hw Hlam Hlon) as CI. rewrite Iff in CI. clearbody q.
  set (v := corrected (lam - w) (lam + w) lon) in *.
  destruct (Rlt_bool_spec v (lam - w)); cbn [orb].
  - split; [intros K; apply CI in K; lra|reflexivity].
  - destruct (Rlt_bool_spec (lam + w) v); split; intros K; try reflexivity.
    + apply CI in K. lra.
    + eexists. reflexivity.
    + exfalso. assert (0 <= cos (lam - lon) + q) by (apply CI; lra). lra.
Qed.

Local Notation onew := (ortho_new (A := ar_num) L num_acos (NaN : ar_num) pro (Num eq : ar_num) (Num pol : ar_num)
   (num1 (fun r => Num (centric_radius eq pol r)) : ar_num -> ar_num)).

Lemma orientation_ok a b g : Rabs a <= 90 - 1 / 1000000000000 -> -360 <= b <= 360 -> -360 <= g <= 360 ->
  exists lam, orientation (A := ar_num) L pro (Num a : ar_num) (Num b : ar_num) (Num g : ar_num) =
    Ok (Num (radians a) : ar_num, Num lam : ar_num, Num (radians g) : ar_num, false) /\
    same_direction lam (radians b) /\ 0 <= lam <= 2 * PI.
Proof.
  intros Ha Hb Hg. pose proof PI_RGT_0 as Ppi. pose proof (Rabs_le_inv _ _ Ha) as Ha'.
  unfold orientation. rewrite validate_lat_ok, validate_lon_ok by lra. cbn [bind].
  change (validate_position_angle (A := ar_num) (l_degree L) (Num g)) with (validate_longitude (A := ar_num) (l_degree L) (Num g)).
  rewrite validate_lon_ok by lra. cbn [bind]. nums.
  change (l_eps L) with eps_num. change (l_tiny L) with tiny_num.
  destruct (almost_equal (A := ar_num) eps_num tiny_num (Num (Rabs a)) (Num 90) 4) eqn:Pole.
  { apply near_pole in Pole; [|lra]. lra. }
  exists (if Rlt_bool (b * (PI / 180)) 0 then b * (PI / 180) + 2 * PI else b * (PI / 180)).
  split; [destruct (Rlt_bool _ 0); reflexivity|].
  unfold same_direction, radians. destruct (Rlt_bool_spec (b * (PI / 180)) 0); (split; [|split; nra]);
  [exists 1%Z|exists 0%Z]; ring.
Qed.

Lemma facing_period phi lam lam' P : same_direction lam' lam -> (facing eq pol pro phi lam' P <-> facing eq pol pro phi lam P).
Proof. intros (k & ->). unfold facing, toward. rewrite shifted. tauto. Qed.

(** A longitude in [0, 360] is accepted exactly when the point is visible. *)
Lemma center_accepted a b g kpp lat lon P : Rabs a <= 90 - 1 / 1000000000000 -> -360 <= b <= 360 -> -360 <= g <= 360 ->
  -90 < lat < 90 -> 0 <= lon <= 360 ->
  is_vec 3 P -> has_position pro P (radians lat) (radians lon) ->
  let r := onew (Num a : ar_num) (Num b : ar_num) (Num g : ar_num) kpp (lat_lon_given (Num lat : ar_num) (Num lon : ar_num)) in
  (facing eq pol pro (radians a) (radians b) P -> exists p, r = Ok p) /\
  (~ facing eq pol pro (radians a) (radians b) P -> r = Throw invalid_argument).
Proof.
  intros Ha Hb Hg Hla Hlo VP HP r. unfold r, ortho_new. pose proof PI_RGT_0 as Ppi. pose proof (Rabs_le_inv _ _ Ha) as Ha'.
  destruct (orientation_ok a b g Ha Hb Hg) as (lam & -> & Sd & Hl). cbn [bind].
  rewrite validate_lat_ok, validate_lon_ok by lra. cbn [bind].
  fold (radians lat). fold (radians lon).
  assert (B1 : - (PI / 2) < radians a < PI / 2) by (unfold radians; split; nra).
  assert (B2 : - (PI / 2) < radians lat < PI / 2) by (unfold radians; split; nra).
  assert (B3 : 0 <= radians lon <= 2 * PI) by (unfold radians; split; nra).
  destruct (visible_spec (radians a) lam (radians lat) (radians lon) B1 B2 Hl B3) as [Y N].
  rewrite <- (facing_period (radians a) (radians b) lam P Sd).
  rewrite (facing_iff (radians a) lam (radians lat) (radians lon) P B1 B2 HP).
  split.
  - intros F. destruct (Y F) as [v ->]. cbn [bind]. destruct (center_km _ _ _ _ _ _ _ _) as [s l]. eexists. reflexivity.
  - intros F. rewrite N by lra. reflexivity.
Qed.

(** Longitudes below zero: the whole equator of a sphere seen from longitude 350. *)
Lemma center_rejected P : eq = pol -> is_vec 3 P -> has_position pro P 0 (radians (-360)) ->
  facing eq pol pro 0 (radians 350) P /\
  forall kpp, onew (Num 0 : ar_num) (Num 350 : ar_num) (Num 0 : ar_num) kpp (lat_lon_given (Num 0 : ar_num) (Num (-360) : ar_num)) = Throw invalid_argument.
Proof.
  intros Ee VP HP. pose proof PI_RGT_0 as Ppi. split.
  - apply (facing_iff 0 (radians 350) 0 (radians (-360)) P); [lra|lra|exact HP|]. rewrite tan_0, !Rmult_0_r, Rplus_0_r.
    replace (radians 350 - radians (-360)) with (- (PI / 18) + 2 * INR 2 * PI) by (unfold radians; cbn [INR]; field).
    rewrite cos_period, cos_neg. left. apply cos_gt_0; lra.
  - intros kpp. unfold ortho_new.
    destruct (orientation_ok 0 350 0) as (lam & E & _ & _); [rewrite Rabs_R0; lra|lra|lra|].
    assert (El : lam = radians 350).
    { unfold orientation in E. rewrite validate_lat_ok, validate_lon_ok in E by lra. cbn [bind] in E.
      change (validate_position_angle (A := ar_num) (l_degree L) (Num 0)) with (validate_longitude (A := ar_num) (l_degree L) (Num 0)) in E.
      rewrite validate_lon_ok in E by lra. cbn [bind] in E.
      destruct (almost_equal _ _ _ _ _); apply Ok_inj in E; [discriminate|].
      revert E. nums. rewrite Rlt_bool_false by lra. intros [= E]. rewrite <- E. reflexivity. }
    rewrite E, El. cbn [bind]. rewrite validate_lat_ok, validate_lon_ok by lra. cbn [bind].
    unfold visible_longitude, radians. rewrite !Rmult_0_l. nums.
    assert (Cz : cos 0 <> 0) by (rewrite cos_0; lra).
    rewrite num_divide by lra. nums. rewrite (Req_bool_true 2 2 eq_refl), (Req_bool_false (cos 0) 0 Cz). nums.
    rewrite tan_0. replace (K * 0 * 0) with 0 by ring.
    rewrite (Rlt_bool_false 0 (-1)) by lra.
    match goal with |- context [if negb false && ?b then ?x else ?y] =>
      assert (Es : (if negb false && b then x else y) = (Num (PI / 2) : ar_num)) end.
    { unfold a_le, neg. nums. rewrite Rabs_R0, Rlt_bool_false by lra. cbn [negb andb]. unfold num_acos. nums.
      rewrite Rminus_0_r, !Rle_bool_true by lra. cbn [andb num_abs]. rewrite acos_0, Rabs_pos_eq by lra. reflexivity. }
    rewrite Es. nums.
    rewrite (Rlt_bool_true (-360 * (PI / 180))) by lra. nums.
    rewrite (Rlt_bool_true (-360 * (PI / 180) + 2 * PI)) by lra. reflexivity.
Qed.
End Visible.

(** * What is accepted (C85) and the cells of the map (C52) *)
Section Accept.
Variables (low : R) (pro : bool) (eq pol : R).
Hypothesis Hpol : 0 < pol.
Hypothesis Hle : pol <= eq.
Local Notation L := (libm_num PI low).
Local Notation radius := (num1 (fun r => Num (centric_radius eq pol r)) : ar_num -> ar_num).
Local Notation onew := (ortho_new (A := ar_num) L num_acos (NaN : ar_num) pro (Num eq : ar_num) (Num pol : ar_num) radius).
Local Notation plot := (ortho_plot_map (A := ar_num) L num_roots pro (Num eq : ar_num) (Num pol : ar_num)).

Lemma validate_cases (d : num) :
  (exists r, d = Num r /\ -90 <= r <= 90) \/ validate_latitude (A := ar_num) (l_degree L) d = Throw invalid_argument.
Proof.
  unfold validate_latitude. destruct d as [|r]; [right; reflexivity|]. nums. cbn [orb].
  destruct (Rlt_bool_spec r (-90)); [right; reflexivity|]. destruct (Rlt_bool_spec 90 r); [right; reflexivity|].
  left. exists r. split; [reflexivity|lra].
Qed.
Lemma validate_cases' (d : num) :
  (exists r, d = Num r /\ -360 <= r <= 360) \/ validate_longitude (A := ar_num) (l_degree L) d = Throw invalid_argument.
Proof.
  unfold validate_longitude. destruct d as [|r]; [right; reflexivity|]. nums. cbn [orb].
  destruct (Rlt_bool_spec r (-360)); [right; reflexivity|]. destruct (Rlt_bool_spec 360 r); [right; reflexivity|].
  left. exists r. split; [reflexivity|lra].
Qed.

Lemma new_accepts (a b g kpp : num) (c : center ar_num) : (forall la lo, c <> lat_lon_given la lo) ->
  (exists p ra rb rg, onew a b g kpp c = Ok p /\ a = Num ra /\ b = Num rb /\ g = Num rg /\
     -90 <= ra <= 90 /\ -360 <= rb <= 360 /\ -360 <= rg <= 360) \/
  (onew a b g kpp c = Throw invalid_argument /\
   ~ exists ra rb rg, a = Num ra /\ b = Num rb /\ g = Num rg /\ -90 <= ra <= 90 /\ -360 <= rb <= 360 /\ -360 <= rg <= 360).
Proof.
  intros Hc. unfold ortho_new, orientation.
  change (validate_position_angle (A := ar_num) (l_degree L) g) with (validate_longitude (A := ar_num) (l_degree L) g).
  destruct (validate_cases a) as [(ra & -> & Ha)|Ha].
  2:{ right. rewrite Ha. split; [reflexivity|]. intros (ra & rb & rg & -> & _ & _ & H & _). rewrite validate_lat_ok in Ha by lra. discriminate. }
  rewrite validate_lat_ok by lra. cbn [bind].
  destruct (validate_cases' b) as [(rb & -> & Hb)|Hb].
  2:{ right. rewrite Hb. split; [reflexivity|]. intros (? & rb & rg & _ & -> & _ & _ & H & _). rewrite validate_lon_ok in Hb by lra. discriminate. }
  rewrite validate_lon_ok by lra. cbn [bind].
  destruct (validate_cases' g) as [(rg & -> & Hg)|Hg].
  2:{ right. rewrite Hg. split; [reflexivity|]. intros (? & ? & rg & _ & _ & -> & _ & _ & H). rewrite validate_lon_ok in Hg by lra. discriminate. }
  rewrite validate_lon_ok by lra. cbn [bind]. left.
  match goal with |- context [almost_equal ?a ?b ?c ?d ?e] => destruct (almost_equal a b c d e) end; cbn [bind];
  (destruct c as [|s l|la lo]; [| |exfalso; exact (Hc la lo eq_refl)]); eexists _, ra, rb, rg; repeat split; lra.
Qed.

(** The three parts of [ortho_cells]. *)
Lemma cells_disc (a b g : num) kpp (c : center ar_num) p samples lines :
  onew a b g (Num kpp : ar_num) c = Ok p -> map_size samples lines -> (0 < samples)%Z -> (0 < lines)%Z ->
  exists ra rb rg phi lam pa k sc lc calls o, a = Num ra /\ b = Num rb /\ g = Num rg /\
    view_of eq pol pro ra rb rg kpp c samples lines phi lam pa k sc lc /\
    plot p samples lines = (calls, Ok o) /\
    forall j i, (0 <= j < lines)%Z -> (0 <= i < samples)%Z ->
      let x := km k sc (IZR i + 1 / 2) in let z := km k lc (IZR j + 1 / 2) in
      (exists q, plotted samples calls j i q) <->
      exists P, is_vec 3 P /\ on_spheroid eq pol P /\ projects_to pro phi lam pa P x z.
Proof.
  intros N Z0 Hs Hl. destruct (ortho_cells low pro eq pol Hpol Hle a b g kpp c p samples lines N Z0 Hs Hl)
    as (ra & rb & rg & phi & lam & pa & k & sc & lc & calls & o & Ea & Eb & Eg & V & E & H).
  exists ra, rb, rg, phi, lam, pa, k, sc, lc, calls, o. do 5 (split; [assumption|]). intros j i Hj Hi. apply (H j i Hj Hi).
Qed.

Lemma cells_surface (a b g : num) kpp (c : center ar_num) p samples lines :
  onew a b g (Num kpp : ar_num) c = Ok p -> map_size samples lines -> (0 < samples)%Z -> (0 < lines)%Z ->
  exists ra rb rg phi lam pa k sc lc calls o, a = Num ra /\ b = Num rb /\ g = Num rg /\
    view_of eq pol pro ra rb rg kpp c samples lines phi lam pa k sc lc /\
    plot p samples lines = (calls, Ok o) /\
    (eq = pol \/ phi = 0 \/ phi = PI / 2 \/ phi = - (PI / 2) ->
     forall j i, (0 <= j < lines)%Z -> (0 <= i < samples)%Z ->
      let x := km k sc (IZR i + 1 / 2) in let z := km k lc (IZR j + 1 / 2) in
      forall q, plotted samples calls j i q -> exists lat lon P, q = (Num lat : ar_num, Num lon : ar_num) /\
        - (PI / 2) <= lat <= PI / 2 /\ is_vec 3 P /\ on_spheroid eq pol P /\
        has_position pro P lat lon /\ projects_to pro phi lam pa P x z /\ facing eq pol pro phi lam P).
Proof.
  intros N Z0 Hs Hl. destruct (ortho_cells low pro eq pol Hpol Hle a b g kpp c p samples lines N Z0 Hs Hl)
    as (ra & rb & rg & phi & lam & pa & k & sc & lc & calls & o & Ea & Eb & Eg & V & E & H).
  exists ra, rb, rg, phi, lam, pa, k, sc, lc, calls, o. do 5 (split; [assumption|]). intros Sp j i Hj Hi x z q Hq.
  destruct (H j i Hj Hi) as [_ H']. destruct (H' q Hq) as (lat & lon & Eq & Bl & Y & _). destruct (Y Sp) as (P & ? & ? & ? & ? & ?).
  exists lat, lon, P. tauto.
Qed.

Lemma cells_tilted (a b g : num) kpp (c : center ar_num) p samples lines : pol < eq ->
  onew a b g (Num kpp : ar_num) c = Ok p -> map_size samples lines -> (0 < samples)%Z -> (0 < lines)%Z ->
  exists ra rb rg phi lam pa k sc lc calls o, a = Num ra /\ b = Num rb /\ g = Num rg /\
    view_of eq pol pro ra rb rg kpp c samples lines phi lam pa k sc lc /\
    plot p samples lines = (calls, Ok o) /\
    (phi <> 0 -> phi <> PI / 2 -> phi <> - (PI / 2) ->
     forall j i, (0 <= j < lines)%Z -> (0 <= i < samples)%Z ->
      let x := km k sc (IZR i + 1 / 2) in let z := km k lc (IZR j + 1 / 2) in
      x * sin pa <> z * cos pa ->
      (forall P, is_vec 3 P -> on_spheroid eq pol P -> projects_to pro phi lam pa P x z -> inner 3 P (toward pro phi lam) <> 0) ->
      forall q, plotted samples calls j i q -> exists lat lon, q = (Num lat : ar_num, Num lon : ar_num) /\
        forall P, is_vec 3 P -> on_spheroid eq pol P -> has_position pro P lat lon -> ~ projects_to pro phi lam pa P x z).
Proof.
  intros Lt N Z0 Hs Hl. destruct (ortho_cells low pro eq pol Hpol Hle a b g kpp c p samples lines N Z0 Hs Hl)
    as (ra & rb & rg & phi & lam & pa & k & sc & lc & calls & o & Ea & Eb & Eg & V & E & H).
  exists ra, rb, rg, phi, lam, pa, k, sc, lc, calls, o. do 5 (split; [assumption|]). intros P0 P1 P2 j i Hj Hi x z Nw Nz q Hq.
  destruct (H j i Hj Hi) as [_ H']. destruct (H' q Hq) as (lat & lon & Eq & Bl & _ & Y).
  exists lat, lon. split; [exact Eq|]. exact (Y Lt P0 P1 P2 Nw Nz).
Qed.
End Accept.

(** A map of one cell on which [cells_tilted] applies: a body of radii 2 and 1 seen
    from latitude 45, the cell half a unit above the center. *)
Lemma tilted_witness low : exists p lam calls o lat lon,
  ortho_new (A := ar_num) (libm_num PI low) num_acos (NaN : ar_num) true (Num 2 : ar_num) (Num 1 : ar_num)
    (num1 (fun r => Num (centric_radius 2 1 r)) : ar_num -> ar_num)
    (Num 45 : ar_num) (Num 0 : ar_num) (Num 0 : ar_num) (Num 1 : ar_num) (center_given (A := ar_num) (Num (1 / 2) : ar_num) (Num 0 : ar_num)) = Ok p /\
  same_direction lam 0 /\
  ortho_plot_map (A := ar_num) (libm_num PI low) num_roots true (Num 2 : ar_num) (Num 1 : ar_num) p 1 1 = (calls, Ok o) /\
  plotted 1 calls 0 0 (Num lat : ar_num, Num lon : ar_num) /\
  (exists P, is_vec 3 P /\ on_spheroid 2 1 P /\ projects_to true (PI / 4) lam 0 P 0 (1 / 2)) /\
  forall P, is_vec 3 P -> on_spheroid 2 1 P -> has_position true P lat lon -> ~ projects_to true (PI / 4) lam 0 P 0 (1 / 2).
Proof.
  pose proof PI_RGT_0 as Ppi.
  assert (Ha : Rabs 45 <= 90 - 1 / 1000000000000) by (rewrite Rabs_pos_eq; lra).
  assert (New : exists p, ortho_new (A := ar_num) (libm_num PI low) num_acos (NaN : ar_num) true (Num 2 : ar_num) (Num 1 : ar_num)
    (num1 (fun r => Num (centric_radius 2 1 r)) : ar_num -> ar_num)
    (Num 45 : ar_num) (Num 0 : ar_num) (Num 0 : ar_num) (Num 1 : ar_num) (center_given (A := ar_num) (Num (1 / 2) : ar_num) (Num 0 : ar_num)) = Ok p).
  { unfold ortho_new. destruct (orientation_ok low true 45 0 0 Ha) as (lam & -> & _); [lra|lra|]. cbn [bind]. eexists. reflexivity. }
  destruct New as [p New]. exists p.
  assert (Sz : map_size 1 1) by (unfold map_size; lia).
  destruct (ortho_cells low true 2 1 ltac:(lra) ltac:(lra) _ _ _ 1 _ p 1 1 New Sz ltac:(lia) ltac:(lia))
    as (ra & rb & rg & phi & lam & pa & k & sc & lc & calls & o & Ea & Eb & Eg & V & E & H).
  injection Ea as <-. injection Eb as <-. injection Eg as <-.
  destruct V as [Or Bl Rs Kp Ce]. destruct Or as [(-> & Sd & -> & _)|(H' & _)]; [|rewrite Rabs_pos_eq in H' by lra; lra].
  destruct Rs as [[_ ->]|[H' _]]; [|lra]. destruct Ce as [-> ->].
  replace (radians 0) with 0 in * by (unfold radians; ring).
  replace (radians 45) with (PI / 4) in * by (unfold radians; field).
  destruct (H 0%Z 0%Z ltac:(lia) ltac:(lia)) as [Pl Bad]. clear H. unfold km in *.
  replace ((IZR 0 + 1 / 2 - 1 / 2) * 1) with 0 in * by (simpl; field). replace ((IZR 0 + 1 / 2 - 0) * 1) with (1 / 2) in * by (simpl; field).
  assert (S2 : sin (PI / 4) * sin (PI / 4) = 1 / 2).
  { pose proof (sc1 (PI / 4)) as T. rewrite sin_PI4, cos_PI4 in *. lra. }
  assert (Sd2 : sin (2 * (PI / 4)) = 1) by (replace (2 * (PI / 4)) with (PI / 2) by field; apply sin_PI2).
  assert (On : on_spheroid 2 1 (seen true (PI / 4) lam 0 (- (9 / 10)) (1 / 2))).
  { apply seen_on; [lra|lra|]. unfold qA, qB, qC. rewrite S2, Sd2. lra. }
  assert (Pj : projects_to true (PI / 4) lam 0 (seen true (PI / 4) lam 0 (- (9 / 10)) (1 / 2)) 0 (1 / 2)).
  { apply seen_projects. rewrite cos_0, sin_0. split; lra. }
  assert (Ex : exists P, is_vec 3 P /\ on_spheroid 2 1 P /\ projects_to true (PI / 4) lam 0 P 0 (1 / 2)).
  { eexists. split; [apply seen_vec|]. split; [exact On|exact Pj]. }
  destruct (proj2 Pl Ex) as [q Hq]. destruct (Bad q Hq) as (lat & lon & -> & _ & _ & Wrong).
  exists lam, calls, o, lat, lon. split; [exact New|]. split; [exact Sd|]. split; [exact E|]. split; [exact Hq|]. split; [exact Ex|].
  apply Wrong; [lra..| |].
  - rewrite cos_0, sin_0. lra.
  - intros P VP OP PP. destruct (seen_all true (PI / 4) lam P VP) as (x & y & z & ->).
    apply seen_projects in PP. rewrite cos_0, sin_0 in PP. destruct PP as [-> ->].
    apply (seen_on true (PI / 4) lam 2 1) in OP; [|lra|lra]. unfold qA, qB, qC in OP.
    rewrite S2, Sd2 in OP. rewrite seen_toward. intros Hy. assert (y = 0) by lra. subst y. lra.
Qed.
