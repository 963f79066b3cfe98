(** The orthographic grid of a constructed projection and the misplaced latitude
    lines of retrograde bodies (C87). *)
From Coq Require Import List ZArith Reals Lra Lia Bool Psatz.
From Flocq Require Import Core BinarySingleNaN.
From Verif Require Import Base BaseFacts Flt FltFacts Num LinAlg_Model Maths_Model Maths_Spec Maths_Proofs
  Spheroid_Model Spheroid_Spec Spheroid_Proofs Proj_Model Proj_Spec Proj_Proofs ProjGrid_Proofs ProjGridR_Proofs
  Ortho_Model Ortho_Spec Ortho_Proofs OrthoVis_Proofs OrthoGrid_Proofs OrthoGridR_Proofs.
Import ListNotations.
Open Scope R_scope.

Section Grid.
Variables (low : R) (pro : bool) (eq pol : R).
Hypothesis Hpol : 0 < pol.
Hypothesis Hle : pol <= eq.
Local Notation L := (libm_num PI low).
Local Notation radius := (num1 (fun r => Num (centric_radius eq pol r)) : ar_num -> ar_num).

Lemma ortho_grid (a b g : num) kpp (c : center ar_num) p samples lines iv jv :
  ortho_new (A := ar_num) L num_acos (NaN : ar_num) pro (Num eq : ar_num) (Num pol : ar_num) radius a b g (Num kpp : ar_num) c = Ok p ->
  map_size samples lines -> (0 < samples)%Z -> (0 < lines)%Z -> 0 < iv -> 0 < jv ->
  exists ra rb rg phi lam pa k sc lc, a = Num ra /\ b = Num rb /\ g = Num rg /\
    view_of eq pol pro ra rb rg kpp c samples lines phi lam pa k sc lc /\
    (Rabs ra <= 90 - 1 / 1000000000000 -> Rabs sc + eq / k < 2 ^ 62 -> Rabs lc + eq / k < 2 ^ 62 ->
     exists gr n0, (forall fuel, (n0 <= fuel)%nat ->
       make_grid samples lines (ortho_plot_grid (A := ar_num) L num_acos num_ssize pro (Num eq : ar_num) (Num pol : ar_num) radius p
         fuel samples lines (Num iv : ar_num) (Num jv : ar_num)) = Some (Ok gr)) /\
       black_or_white (samples * lines) gr /\
       forall j i, (0 <= j < lines)%Z -> (0 <= i < samples)%Z ->
         (white_at samples gr j i <->
          (exists n m, latitude_line iv n /\ Rabs n < 90 /\ step 0 360 2000 m /\
             marks_at eq pol pro phi lam pa k sc lc n m (if pro then m else m + 2 * rb) j i) \/
          (exists n m, longitude_line jv m /\ step (-90) 180 1000 n /\ Rabs n < 90 /\
             marks_at eq pol pro phi lam pa k sc lc n m m j i))).
Proof.
  intros New Sz Hs Hl Hiv Hjv.
  destruct (new_spec low pro eq pol Hpol Hle a b g kpp c p samples lines New Hs Hl)
    as (ra & rb & rg & phi & lam & pa & k & sc & lc & -> & -> & -> & V & Elat & Elon & Epa & Mp & Po & Np & Lm).
  exists ra, rb, rg, phi, lam, pa, k, sc, lc. do 3 (split; [reflexivity|]). split; [exact V|].
  intros Ha Hsc Hlc. destruct p as [p1 p2 p3 pk ps pl pla plo polar]. cbn [o_lat o_lon o_pa o_polar] in *. subst p1 p2 p3.
  destruct (vo_oriented _ _ _ _ _ _ _ _ _ _ _ _ _ _ _ _ V) as [(-> & Sd & -> & _)|(H & _)]; [|lra].
  apply (grid_content low pro eq pol Hpol Hle (radians ra) lam (radians rg) k sc lc samples lines); try assumption.
  - unfold radians. rewrite Rabs_mult. pose proof PI_RGT_0. rewrite (Rabs_pos_eq (PI / 180)) by lra.
    assert (3 < PI) by (pose proof PI2_3_2; lra). nra.
  - exact (vo_positive _ _ _ _ _ _ _ _ _ _ _ _ _ _ _ _ V).
Qed.

(** A correct place when the observer is above longitude 0 or 180. *)
Lemma marks_turn phi lam pa k sc lc n m j i z :
  marks_at eq pol pro phi lam pa k sc lc n m (m + 360 * IZR z) j i <-> marks_at eq pol pro phi lam pa k sc lc n m m j i.
Proof.
  unfold marks_at, surface_point, has_position.
  assert (E : forall r, spherical r (radians n) (east pro (radians (m + 360 * IZR z))) = spherical r (radians n) (east pro (radians m))).
  { intros r. rewrite <- (shifted pro r (radians n) (radians m) z). do 2 f_equal. unfold radians. field. }
  split; (intros [H (P & (Vp & O & r & Hr & EP) & S)]; split; [exact H|]; exists P; split; [|exact S]; split; [exact Vp|]; split; [exact O|]; exists r; split; [exact Hr|]).
  - rewrite <- E. exact EP.
  - rewrite E. exact EP.
Qed.

Lemma ortho_grid_right (a b g : num) kpp (c : center ar_num) p samples lines iv jv :
  ortho_new (A := ar_num) L num_acos (NaN : ar_num) pro (Num eq : ar_num) (Num pol : ar_num) radius a b g (Num kpp : ar_num) c = Ok p ->
  map_size samples lines -> (0 < samples)%Z -> (0 < lines)%Z -> 0 < iv -> 0 < jv ->
  exists ra rb rg phi lam pa k sc lc, a = Num ra /\ b = Num rb /\ g = Num rg /\
    view_of eq pol pro ra rb rg kpp c samples lines phi lam pa k sc lc /\
    (pro = true \/ (exists z, rb = 180 * IZR z) -> Rabs ra <= 90 - 1 / 1000000000000 ->
     Rabs sc + eq / k < 2 ^ 62 -> Rabs lc + eq / k < 2 ^ 62 ->
     exists gr n0, (forall fuel, (n0 <= fuel)%nat ->
       make_grid samples lines (ortho_plot_grid (A := ar_num) L num_acos num_ssize pro (Num eq : ar_num) (Num pol : ar_num) radius p
         fuel samples lines (Num iv : ar_num) (Num jv : ar_num)) = Some (Ok gr)) /\
       black_or_white (samples * lines) gr /\
       forall j i, (0 <= j < lines)%Z -> (0 <= i < samples)%Z ->
         (white_at samples gr j i <->
          exists n m, ((latitude_line iv n /\ step 0 360 2000 m) \/ (longitude_line jv m /\ step (-90) 180 1000 n)) /\
            Rabs n < 90 /\ marks_at eq pol pro phi lam pa k sc lc n m m j i)).
Proof.
  intros New Sz Hs Hl Hiv Hjv.
  destruct (ortho_grid a b g kpp c p samples lines iv jv New Sz Hs Hl Hiv Hjv) as (ra & rb & rg & phi & lam & pa & k & sc & lc & -> & -> & -> & V & W).
  exists ra, rb, rg, phi, lam, pa, k, sc, lc. do 3 (split; [reflexivity|]). split; [exact V|].
  intros Hright Ha Hsc Hlc. destruct (W Ha Hsc Hlc) as (gr & n0 & R & B & C). exists gr, n0. split; [exact R|]. split; [exact B|].
  intros j i Hj Hi. rewrite (C j i Hj Hi).
  assert (T : forall n m, marks_at eq pol pro phi lam pa k sc lc n m (if pro then m else m + 2 * rb) j i <-> marks_at eq pol pro phi lam pa k sc lc n m m j i).
  { intros n m. destruct Hright as [Hp|[z Hz]]; [rewrite Hp; reflexivity|].
    replace (if pro then m else m + 2 * rb) with (m + 360 * IZR (if pro then 0 else z)); [apply marks_turn|].
    destruct pro; [ring|]. rewrite Hz. ring. }
  split.
  - intros [(n & m & H1 & H2 & H3 & H4)|(n & m & H1 & H2 & H3 & H4)]; exists n, m.
    + apply T in H4. tauto.
    + tauto.
  - intros (n & m & [[H1 H2]|[H1 H2]] & H3 & H4); [left|right]; exists n, m.
    + rewrite T. tauto.
    + tauto.
Qed.
End Grid.

(** * Retrograde bodies *)
Section Retrograde.
Variables (low eq pol : R).
Hypothesis Hpol : 0 < pol.
Hypothesis Hle : pol <= eq.
Local Notation L := (libm_num PI low).
Local Notation radius := (num1 (fun r => Num (centric_radius eq pol r)) : ar_num -> ar_num).

Lemma retro_grid samples lines iv jv : map_size samples lines -> (3 <= samples)%Z -> (3 <= lines)%Z -> 0 < iv -> 360 < jv ->
  latitude_line iv 0 ->
  exists p gr n0, ortho_new (A := ar_num) L num_acos (NaN : ar_num) false (Num eq : ar_num) (Num pol : ar_num) radius
      (Num 0 : ar_num) (Num 45 : ar_num) (Num 0 : ar_num) (Num 0 : ar_num) (default_center (A := ar_num)) = Ok p /\
    (forall fuel, (n0 <= fuel)%nat ->
       make_grid samples lines (ortho_plot_grid (A := ar_num) L num_acos num_ssize false (Num eq : ar_num) (Num pol : ar_num) radius p
         fuel samples lines (Num iv : ar_num) (Num jv : ar_num)) = Some (Ok gr)) /\
    exists k sc lc, view_of eq pol false 0 45 0 0 (default_center (A := ar_num)) samples lines 0 (radians 45) 0 k sc lc /\
      (forall j i, (0 <= j < lines)%Z -> (0 <= i < samples)%Z -> white_at samples gr j i -> IZR samples / 2 < IZR i + 1 / 2) /\
      exists j i, (0 <= j < lines)%Z /\ (0 <= i < samples)%Z /\
        marks_at eq pol false 0 (radians 45) 0 k sc lc 0 315 315 j i /\ ~ white_at samples gr j i.
Proof.
  intros Sz Hs Hl Hiv Hjv Heq. pose proof PI_RGT_0 as Ppi.
  set (mn := Z.min samples lines). assert (Hm : (3 <= mn)%Z) by (unfold mn; lia). pose proof (IZR_le _ _ Hm) as Hm'. simpl in Hm'.
  assert (Hms : IZR mn <= IZR samples) by (apply IZR_le; unfold mn; lia).
  pose proof (IZR_le _ _ Hs) as Hs'. pose proof (IZR_le _ _ Hl) as Hl'. simpl in Hs', Hl'.
  set (k := 2 * eq / (9 / 10 * IZR mn)). set (sc := IZR samples / 2). set (lc := IZR lines / 2).
  assert (Hk : 0 < k) by (apply Rdiv_lt_0_compat; lra).
  assert (Ek : eq / k = 9 / 20 * IZR mn) by (unfold k; field; split; lra).
  set (p := @Ortho ar_num (Num 0) (Num (radians 45)) (Num 0) (Num (-1)) NaN NaN NaN NaN false).
  assert (New : ortho_new (A := ar_num) L num_acos (NaN : ar_num) false (Num eq : ar_num) (Num pol : ar_num) radius
      (Num 0 : ar_num) (Num 45 : ar_num) (Num 0 : ar_num) (Num 0 : ar_num) (default_center (A := ar_num)) = Ok p).
  { unfold ortho_new, orientation. rewrite validate_lat_ok, validate_lon_ok by lra. cbn [bind].
    change (validate_position_angle (A := ar_num) (l_degree L) (Num 0)) with (validate_longitude (A := ar_num) (l_degree L) (Num 0)).
    rewrite validate_lon_ok by lra. cbn [bind]. nums.
    change (l_eps L) with eps_num. change (l_tiny L) with tiny_num.
    destruct (almost_equal (A := ar_num) eps_num tiny_num (Num (Rabs 0)) (Num 90) 4) eqn:Pole.
    { apply near_pole in Pole; rewrite Rabs_R0 in *; lra. }
    cbn [bind]. rewrite (Rlt_bool_false (45 * (PI / 180))), (Rlt_bool_false 0 0) by lra. unfold p, radians. rewrite !Rmult_0_l. reflexivity. }
  assert (Mp : map_parameters (A := ar_num) (Num eq : ar_num) (Num pol : ar_num) p samples lines = (Num k : ar_num, Num sc : ar_num, Num lc : ar_num)).
  { unfold map_parameters, p. cbn [o_kpp o_latc o_lonc o_sc o_lc]. unfold a_le. nums. cbn [negb andb orb].
    rewrite (Rlt_bool_false 0 (-1)), (Rlt_bool_false eq pol) by lra. cbn [negb]. nums. fold mn. rewrite !num_divide by lra. nums.
    rewrite num_divide by lra. reflexivity. }
  assert (Rng : Rabs sc + eq / k < 2 ^ 62 /\ Rabs lc + eq / k < 2 ^ 62).
  { destruct Sz as (S0 & L0 & Hn). change (2 ^ 64)%Z with 18446744073709551616%Z in *.
    assert (Bs : (samples <= 6148914691236517206)%Z) by nia. assert (Bl : (lines <= 6148914691236517206)%Z) by nia.
    assert (Bm : (mn <= 4294967296)%Z).
    { destruct (Z_le_gt_dec mn 4294967296); [assumption|]. exfalso. assert (4294967297 <= samples)%Z by (unfold mn in *; lia).
      assert (4294967297 <= lines)%Z by (unfold mn in *; lia). nia. }
    apply IZR_le in Bs, Bl, Bm. rewrite Ek. unfold sc, lc. rewrite !Rabs_pos_eq by lra. cbn [pow]. split; lra. }
  destruct Rng as [Rs Rl].
  assert (P0 : Rabs 0 <= PI / 2 - 1 / 60000000000000).
  { rewrite Rabs_R0. pose proof PI2_3_2. lra. }
  assert (Sd : same_direction (radians 45) (radians 45)) by (exists 0%Z; ring).
  assert (Lm : 0 <= radians 45 <= 2 * PI) by (unfold radians; lra).
  destruct (grid_content low false eq pol Hpol Hle 0 (radians 45) 0 k sc lc samples lines P0 Lm Hk Sz Rs Rl
    (Num (-1)) NaN NaN NaN NaN false 45 Sd iv jv Hiv ltac:(lra) Mp) as (gr & n0 & Run & BW & White).
  exists p, gr, n0. split; [exact New|]. split; [exact Run|]. exists k, sc, lc. split.
  { constructor.
    - left. split; [unfold radians; ring|]. split; [exact Sd|]. split; [unfold radians; ring|rewrite Rabs_R0; lra].
    - lra.
    - right. split; [lra|]. fold mn. unfold k. field. lra.
    - exact Hk.
    - split; reflexivity. }
  (* position of a surface point *)
  assert (Proj : forall r lat lon x z, projects_to false 0 (radians 45) 0 (spherical r lat (east false (radians lon))) x z ->
     x = r * cos lat * sin (radians (lon - 45)) /\ z = r * sin lat).
  { intros r lat lon x z [-> ->]. unfold inner, rightward, northward, spherical, vget, east. cbn [sum_to nth].
    replace (radians (lon - 45)) with (radians lon - radians 45) by (unfold radians; ring).
    rewrite sin_minus, cos_0, sin_0. split; ring. }
  assert (Left : forall j i, (0 <= j < lines)%Z -> (0 <= i < samples)%Z -> white_at samples gr j i -> IZR samples / 2 < IZR i + 1 / 2).
  { intros j i Hj Hi Wh. apply White in Wh; [|exact Hj|exact Hi]. destruct Wh as [(n & m & Hn & N90 & Hst & Mk)|(n & m & (z & Hz & Em & H360) & _)].
    2:{ exfalso. apply IZR_le in Hz. simpl in Hz. nra. }
    destruct Mk as [(P & (_ & _ & HP) & F) (P' & (_ & _ & (r & Hr & ->)) & (x & z & Pr & (I0 & Ni & _) & _))].
    assert (Bn : - (PI / 2) < radians n < PI / 2).
    { apply Rabs_def2 in N90. unfold radians. split; nra. }
    apply (facing_iff false eq pol Hpol Hle 0 (radians 45) (radians n) (radians m)) in F; [|lra|exact Bn|exact HP].
    rewrite tan_0, Rmult_0_r, Rplus_0_r in F. apply Proj in Pr. destruct Pr as [-> _].
    assert (E : sin (radians (m + 2 * 45 - 45)) = cos (radians 45 - radians m)).
    { replace (radians (m + 2 * 45 - 45)) with (PI / 2 - (radians 45 - radians m)) by (unfold radians; field). rewrite sin_shift. reflexivity. }
    rewrite E in Ni. assert (0 < cos (radians n)) by (apply cos_gt_0; lra).
    assert (0 <= r * cos (radians n) * cos (radians 45 - radians m) / k).
    { apply Rmult_le_pos; [|left; now apply Rinv_0_lt_compat]. apply Rmult_le_pos; [nra|exact F]. }
    unfold sc in Ni. lra. }
  split; [exact Left|].
  (* the western limb *)
  set (x := sc - eq / k). set (i := ZnearestA x). set (j := ZnearestA lc).
  pose proof (Znearest_half (Zle_bool 0) x) as Hi2. pose proof (Znearest_half (Zle_bool 0) lc) as Hj2. fold i in Hi2. fold j in Hj2.
  apply Rabs_le_inv in Hi2, Hj2.
  assert (Bx : 0 <= x) by (unfold x, sc; rewrite Ek; lra).
  assert (Bi : (0 <= i < samples)%Z).
  { split.
    - assert (-1 < i)%Z; [|lia]. apply lt_IZR. simpl. lra.
    - apply lt_IZR. unfold x, sc in *. rewrite Ek in *. lra. }
  assert (Bj : (0 <= j < lines)%Z).
  { split.
    - assert (-1 < j)%Z; [|lia]. apply lt_IZR. simpl. unfold lc in *. lra.
    - apply lt_IZR. unfold lc in *. lra. }
  exists j, i. split; [exact Bj|]. split; [exact Bi|]. split.
  2:{ intros Wh. apply (Left j i Bj Bi) in Wh. unfold x, sc in *. rewrite Ek in *. lra. }
  assert (SP : surface_point eq pol false 0 315 (spherical eq (radians 0) (east false (radians 315)))).
  { split; [reflexivity|]. split.
    - destruct (radius_ends eq pol Hpol Hle) as [E0 _]. rewrite <- E0 at 2. replace 0 with (radians 0) at 1 by (unfold radians; ring).
      apply radius_on; assumption.
    - exists eq. split; [lra|reflexivity]. }
  assert (R0 : radians 0 = 0) by (unfold radians; ring).
  split.
  - eexists. split; [exact SP|]. destruct SP as (_ & _ & HP).
    apply (facing_iff false eq pol Hpol Hle 0 (radians 45) (radians 0) (radians 315)); [lra|rewrite R0; lra|exact HP|].
    rewrite R0, tan_0, !Rmult_0_r, Rplus_0_r.
    replace (radians 45 - radians 315) with (- (3 * (PI / 2))) by (unfold radians; field). rewrite cos_neg, cos_3PI2. lra.
  - eexists. split; [exact SP|]. exists (- eq), 0. split; [|split].
    + unfold projects_to, inner, rightward, northward, spherical, vget, east. cbn [sum_to nth]. rewrite R0, cos_0, sin_0.
      assert (T : sin (radians 315) * cos (radians 45) - cos (radians 315) * sin (radians 45) = -1).
      { rewrite <- sin_minus. replace (radians 315 - radians 45) with (3 * (PI / 2)) by (unfold radians; field). apply sin_3PI2. }
      split; [|ring].
      transitivity (eq * (sin (radians 315) * cos (radians 45) - cos (radians 315) * sin (radians 45))); [rewrite T; ring|ring].
    + replace (sc + - eq / k) with x by (unfold x; field; lra). apply nearest_spec. split; [reflexivity|lia].
    + replace (lc + 0 / k) with lc by (field; lra). apply nearest_spec. split; [reflexivity|lia].
Qed.
End Retrograde.
