(** Contents of the cylindrical grids over the reals (C49). *)
From Coq Require Import List ZArith Reals Lra Lia Bool.
From Flocq Require Import Core BinarySingleNaN.
From Verif Require Import Base BaseFacts Flt FltFacts Num Maths_Model Maths_Spec Maths_Proofs Spheroid_Model
  Spheroid_Proofs Proj_Model Proj_Spec Proj_Proofs ProjGrid_Proofs.
Import ListNotations.
Open Scope R_scope.

Lemma nearest_spec x k : nearest x k <-> ZnearestA x = k /\ (0 <= k)%Z.
Proof.
  unfold nearest. split.
  - intros (K0 & [H1 H2] & H3). split; [|exact K0].
    destruct (Req_dec x (IZR k - 1 / 2)) as [E|N].
    + assert (Kpos : (1 <= k)%Z).
      { assert (0 < k)%Z; [|lia]. apply lt_IZR. simpl. lra. }
      assert (Fl : Zfloor x = (k - 1)%Z).
      { apply Zfloor_imp. rewrite plus_IZR, minus_IZR. simpl. lra. }
      unfold Znearest. rewrite Fl. rewrite minus_IZR. simpl (IZR 1).
      replace (x - (IZR k - 1)) with (/ 2) by lra. rewrite Rcompare_Eq by reflexivity.
      destruct (Z.leb_spec 0 (k - 1)); [|lia].
      apply Zceil_imp. rewrite minus_IZR. simpl. lra.
    + apply Znearest_imp. apply Rabs_def1; lra.
  - intros [E K0]. pose proof (Znearest_half (Zle_bool 0) x) as H. rewrite E in H.
    apply Rabs_le_inv in H. replace (1 / 2) with (/ 2) by lra.
    assert (Hlt : - / 2 < x).
    { destruct (Rlt_or_le (- / 2) x) as [L|L]; [exact L|exfalso].
      assert (IZR 0 <= IZR k) by (apply IZR_le; exact K0). simpl in H0.
      assert (x = - / 2) by lra. assert (Fl : Zfloor x = (- 1)%Z) by (apply Zfloor_imp; simpl; lra).
      unfold Znearest in E. rewrite Fl in E. replace (x - IZR (- 1)) with (/ 2) in E by (simpl; lra).
      rewrite Rcompare_Eq in E by reflexivity. simpl in E. lia. }
    repeat split; try lra; [exact K0|].
    destruct (Rlt_or_le x (IZR k + / 2)) as [L|L]; [exact L|exfalso].
    assert (Ex : x = IZR k + / 2) by lra. assert (Fl : Zfloor x = k) by (apply Zfloor_imp; rewrite plus_IZR; simpl; lra).
    unfold Znearest in E. rewrite Fl in E. replace (x - IZR k) with (/ 2) in E by lra.
    rewrite Rcompare_Eq in E by reflexivity. destruct (Z.leb_spec 0 k); [|lia].
    assert (Zceil x = (k + 1)%Z) by (apply Zceil_imp; rewrite !minus_IZR, !plus_IZR; simpl; lra). lia.
Qed.

Lemma round_num c low x : l_round (libm_num c low) (Num x) = Num (IZR (ZnearestA x)).
Proof. reflexivity. Qed.

Lemma below_ceil z x : (z < Zceil x)%Z <-> IZR z < x.
Proof.
  split; intros H.
  - destruct (Rlt_or_le (IZR z) x) as [L|L]; [exact L|]. apply Zceil_glb in L. lia.
  - apply lt_IZR. pose proof (Zceil_ub x). lra.
Qed.

Lemma Rlt_bool_Z (P : bool) x y : (P = true <-> x < y) -> Rlt_bool x y = P.
Proof. intros H. case Rlt_bool_spec; intros L; destruct P; auto; exfalso; [apply H in L; discriminate|]. destruct H as [H _]. specialize (H eq_refl). lra. Qed.

Section Content.
Context (c low : R) (samples lines : Z) (Hmap : map_size samples lines).
Local Notation L := (libm_num c low).

Lemma latitude_content iv (ordinate : ar_num -> ar_num) (f : R -> R) g : 0 < iv ->
  (forall n, grid_latitude iv n -> ordinate (Num n) = Num (f n)) -> Z.of_nat (length g) = (samples * lines)%Z ->
  exists g' n0, (forall fuel, (n0 <= fuel)%nat ->
      latitude_lines L fuel samples lines (Num iv : ar_num) ordinate g = Some (Ok g')) /\
    painted g g' (fun q => exists n k, grid_latitude iv n /\ nearest (f n) k /\ (k < lines)%Z /\
                                       (k * samples <= q < k * samples + samples)%Z).
Proof.
  destruct Hmap as (S0 & L0 & Hn). intros Hiv Hf Hg.
  set (N := (Zceil (180 / iv) - 1)%Z). set (v := fun j : Z => (Num (-90 + IZR (j + 1) * iv) : ar_num)).
  assert (Hlat : forall j, (0 <= j < N)%Z -> grid_latitude iv (-90 + IZR (j + 1) * iv)).
  { intros j Hj. exists (j + 1)%Z. split; [lia|]. split; [reflexivity|].
    assert (B : (j + 1 < Zceil (180 / iv))%Z) by (unfold N in Hj; lia). apply below_ceil in B.
    apply (Rmult_lt_compat_r iv) in B; [|exact Hiv]. unfold Rdiv in B. rewrite Rmult_assoc, Rinv_l in B by lra. lra. }
  set (S := fun j q : Z => let k := ZnearestA (f (-90 + IZR (j + 1) * iv)) in
     (0 <= k < lines)%Z /\ (k * samples <= q < k * samples + samples)%Z).
  assert (N0 : (0 <= N)%Z).
  { unfold N. assert (0 < Zceil (180 / iv))%Z; [|lia]. apply below_ceil. simpl. apply Rdiv_lt_0_compat; lra. }
  destruct (for_loop_paint (fun n => a_lt ar_num n (Num 90)) (fun n => a_add ar_num n (Num iv))
     (draw_latitude L samples lines ordinate) v N (samples * lines) S N0) with (fuel := Datatypes.S (Z.to_nat N)) (g := g) as (g' & E & P).
  - intros j Hj. unfold v. cbn [a_lt ar_num num_lt]. apply Rlt_bool_Z. rewrite Z.ltb_lt.
    unfold N. assert (Eq1 : (j < Zceil (180 / iv) - 1)%Z <-> (j + 1 < Zceil (180 / iv))%Z) by lia. rewrite Eq1, below_ceil. split; intros B.
    + apply (Rmult_lt_compat_r iv) in B; [|exact Hiv]. unfold Rdiv in B. rewrite Rmult_assoc, Rinv_l in B by lra. lra.
    + apply (Rmult_lt_reg_r iv); [exact Hiv|]. unfold Rdiv. rewrite Rmult_assoc, Rinv_l by lra. lra.
  - intros j Hj. unfold v. cbn [a_add ar_num num2]. f_equal. rewrite (plus_IZR (j + 1)). ring.
  - intros j q. unfold S. cbv zeta. set (k := ZnearestA _).
    destruct (Z_le_dec 0 k), (Z_lt_dec k lines), (Z_le_dec (k * samples) q), (Z_lt_dec q (k * samples + samples));
      first [left; lia | right; lia].
  - intros j g0 Hj Hg0. unfold v, draw_latitude. rewrite Hf by (apply Hlat; exact Hj). rewrite round_num.
    unfold S. cbv zeta. set (k := ZnearestA _). unfold a_le. cbn [a_isnan ar_num num_isnan negb andb a_lt a_of_Z num_lt].
    case Rlt_bool_spec; intros B1; cbn [negb andb].
    { apply lt_IZR in B1. exists g0. split; [reflexivity|]. apply painted_none. intros. lia. }
    apply le_IZR in B1. case Rlt_bool_spec; intros B2.
    + apply lt_IZR in B2. cbn [a_size a_mul ar_num num2]. rewrite <- mult_IZR. rewrite num_size_IZR by (change (2 ^ 64)%Z with size_mod in Hn; nia).
      cbn [bind]. destruct (fill_row_painted (Z.to_nat samples) (k * samples) g0) as (g1 & E1 & P1); [nia|nia|].
      exists g1. split; [exact E1|]. destruct P1 as [Pl P1]. split; [exact Pl|]. intros q Hq. destruct (P1 q Hq) as [Pa Pb].
      split; intros Sq; [apply Pa; lia|apply Pb; lia].
    + apply le_IZR in B2. exists g0. split; [reflexivity|]. apply painted_none. intros. lia.
  - lia.
  - exact Hg.
  - exists g', (Datatypes.S (Z.to_nat N)). split.
    + intros fuel Hfu. apply (for_loop_more _ _ _ _ _ Hfu). unfold latitude_lines in *. 
      replace (a_add ar_num (a_of_Z ar_num (-90)) (Num iv)) with (v 0%Z); [exact E|].
      unfold v. cbn [a_add a_of_Z ar_num num2]. f_equal. simpl. ring.
    + destruct P as [Pl P]. split; [exact Pl|]. intros q Hq. destruct (P q Hq) as [Pa Pb].
      assert (Iff : (exists j, (0 <= j < N)%Z /\ S j q) <-> (exists n k, grid_latitude iv n /\ nearest (f n) k /\ (k < lines)%Z /\
                                       (k * samples <= q < k * samples + samples)%Z)).
      { split.
        - intros (j & Hj & Sj). unfold S in Sj. cbv zeta in Sj. exists (-90 + IZR (j + 1) * iv), (ZnearestA (f (-90 + IZR (j + 1) * iv))).
          split; [apply Hlat; exact Hj|]. split; [apply nearest_spec; split; [reflexivity|lia]|lia].
        - intros (n & k & (j & Hj & -> & H90) & Hk & Hkl & Hq'). exists (j - 1)%Z. apply nearest_spec in Hk. destruct Hk as [Hk K0].
          split.
          + split; [lia|]. unfold N. assert (j < Zceil (180 / iv))%Z; [|lia]. apply below_ceil.
            apply (Rmult_lt_reg_r iv); [exact Hiv|]. unfold Rdiv. rewrite Rmult_assoc, Rinv_l by lra. lra.
          + unfold S. cbv zeta. replace (j - 1 + 1)%Z with j by lia. rewrite Hk. lia. }
      split; intros X; [apply Pa; apply Iff; exact X|apply Pb; rewrite Iff; exact X].
Qed.

Lemma longitude_content prograde jv (abscissa : ar_num -> ar_num) (h : R -> R) g : 0 < jv ->
  (forall m, grid_longitude jv m -> abscissa (Num m) = Num (h m) /\ - (1 / 2) < h m < 2 ^ 64 - 1 / 2) ->
  Z.of_nat (length g) = (samples * lines)%Z ->
  exists g' n0, (forall fuel, (n0 <= fuel)%nat ->
      longitude_lines L fuel prograde samples lines (Num jv : ar_num) abscissa g = Some (Ok g')) /\
    painted g g' (fun q => exists m r k, grid_longitude jv m /\ nearest (h m) r /\ (0 <= k < lines)%Z /\
       (0 <= (if prograde then samples - r else r) < samples)%Z /\
       q = (k * samples + if prograde then samples - r else r)%Z).
Proof.
  destruct Hmap as (S0 & L0 & Hn). change (2 ^ 64)%Z with size_mod in Hn. intros Hjv Hh Hg.
  set (N := Zceil (360 / jv)). set (v := fun j : Z => (Num (360 - IZR j * jv) : ar_num)).
  set (col := fun r : Z => if prograde then (samples - r)%Z else r).
  assert (Iff : forall j, (j < N)%Z <-> 0 < 360 - IZR j * jv).
  { intros j. unfold N. rewrite below_ceil. split; intros B.
    + apply (Rmult_lt_compat_r jv) in B; [|exact Hjv]. unfold Rdiv in B. rewrite Rmult_assoc, Rinv_l in B by lra. lra.
    + apply (Rmult_lt_reg_r jv); [exact Hjv|]. unfold Rdiv. rewrite Rmult_assoc, Rinv_l by lra. lra. }
  assert (Hlon : forall j, (0 <= j < N)%Z -> grid_longitude jv (360 - IZR j * jv)).
  { intros j Hj. exists j. split; [lia|]. split; [reflexivity|]. apply Iff. lia. }
  set (S := fun j q : Z => let i := col (ZnearestA (h (360 - IZR j * jv))) in
     (0 <= i < samples)%Z /\ (exists k, (0 <= k < lines)%Z /\ q = (k * samples + i)%Z)).
  assert (N0 : (0 <= N)%Z).
  { unfold N. assert (0 < Zceil (360 / jv))%Z; [|lia]. apply below_ceil. simpl. apply Rdiv_lt_0_compat; lra. }
  destruct (for_loop_paint (fun m => a_lt ar_num (Num 0) m) (fun m => a_sub ar_num m (Num jv))
     (draw_longitude L prograde samples lines abscissa) v N (samples * lines) S N0) with (fuel := Datatypes.S (Z.to_nat N)) (g := g) as (g' & E & P).
  - intros j Hj. unfold v. cbn [a_lt ar_num num_lt]. apply Rlt_bool_Z. rewrite Z.ltb_lt. apply Iff.
  - intros j Hj. unfold v. cbn [a_sub ar_num num2]. f_equal. rewrite plus_IZR. ring.
  - intros j q. unfold S. cbv zeta. set (i := col _).
    destruct (Z_le_dec 0 i); [|right; lia]. destruct (Z_lt_dec i samples); [|right; lia].
    set (k := ((q - i) / samples)%Z). destruct (Z.eq_dec q (k * samples + i)).
    + destruct (Z_le_dec 0 k); [destruct (Z_lt_dec k lines)|].
      * left. split; [lia|]. exists k. lia.
      * right. intros (_ & k' & Hk' & Eq). assert (k' = k) by nia. lia.
      * right. intros (_ & k' & Hk' & Eq). assert (k' = k) by nia. lia.
    + right. intros (_ & k' & Hk' & Eq). apply n. unfold k. rewrite Eq at 2.
      replace (k' * samples + i - i)%Z with (k' * samples)%Z by ring. rewrite Z.div_mul by lia. exact Eq.
  - intros j g0 Hj Hg0. unfold v, draw_longitude. destruct (Hh _ (Hlon j Hj)) as [-> Hb]. rewrite round_num.
    unfold S. cbv zeta. set (r := ZnearestA _).
    assert (Hr : (0 <= r < size_mod)%Z).
    { pose proof (Znearest_half (Zle_bool 0) (h (360 - IZR j * jv))) as Hh2. fold r in Hh2. apply Rabs_le_inv in Hh2.
      assert (H64 : IZR size_mod = 2 ^ 64) by (change size_mod with (2 ^ 64)%Z; rewrite (pow_IZR 2 64); reflexivity).
      split.
      - assert (-1 < r)%Z; [|lia]. apply lt_IZR. simpl. lra.
      - apply lt_IZR. rewrite H64. lra. }
    cbn [a_size ar_num]. rewrite num_size_IZR by exact Hr. cbn [bind].
    change (2 ^ 64)%Z with size_mod in S0.
    assert (Hw : (if prograde then wrap (samples - r) else r) = col r /\ (0 <= col r)%Z \/
                 (samples <= (if prograde then wrap (samples - r) else r) /\ ~ 0 <= col r < samples)%Z).
    { unfold col. destruct prograde; [|left; lia]. destruct (Z_le_dec r samples).
      - left. rewrite wrap_id; lia.
      - right. split; [|lia]. unfold wrap. replace (samples - r)%Z with ((samples - r + size_mod) + (-1) * size_mod)%Z by ring.
        rewrite Z.mod_add by discriminate. rewrite Z.mod_small; lia. }
    set (w := if prograde then wrap (samples - r) else r) in *. clearbody w.
    destruct (Z.ltb_spec w samples) as [Lt|Ge].
    + destruct Hw as [[-> Hi]|[Hw _]]; [|lia].
      destruct (fill_column_painted (Z.to_nat lines) samples (col r) 0 g0) as (g1 & E1 & P1); [lia|lia|nia|lia|].
      exists g1. split; [exact E1|]. destruct P1 as [Pl P1]. split; [exact Pl|]. intros q Hq. destruct (P1 q Hq) as [Pa Pb].
      split.
      * intros [_ (k & Hk & Eq)]. apply Pa. exists k. split; [lia|exact Eq].
      * intros X. apply Pb. intros (k & Hk & Eq). apply X. split; [lia|]. exists k. split; [lia|exact Eq].
    + exists g0. split; [reflexivity|]. apply painted_none. intros q Hq [Hi _]. destruct Hw as [Hw|Hw]; lia.
  - lia.
  - exact Hg.
  - exists g', (Datatypes.S (Z.to_nat N)). split.
    + intros fuel Hfu. apply (for_loop_more _ _ _ _ _ Hfu). unfold longitude_lines in *.
      replace (a_of_Z ar_num 360) with (v 0%Z); [exact E|].
      unfold v. cbn [a_of_Z ar_num]. f_equal. simpl. ring.
    + destruct P as [Pl P]. split; [exact Pl|]. intros q Hq. destruct (P q Hq) as [Pa Pb].
      match goal with |- (?X -> _) /\ _ => assert (Iff2 : (exists j, (0 <= j < N)%Z /\ S j q) <-> X) end.
      { split.
        - intros (j & Hj & Sj). unfold S in Sj. cbv zeta in Sj. destruct Sj as (Hi & k & Hk & Eq).
          exists (360 - IZR j * jv), (ZnearestA (h (360 - IZR j * jv))), k.
          split; [apply Hlon; exact Hj|]. split; [|split; [exact Hk|split; [exact Hi|exact Eq]]].
          apply nearest_spec. split; [reflexivity|]. destruct (Hh _ (Hlon j Hj)) as [_ Hb].
          pose proof (Znearest_half (Zle_bool 0) (h (360 - IZR j * jv))) as Hh2. apply Rabs_le_inv in Hh2.
          assert (-1 < ZnearestA (h (360 - IZR j * jv)%R))%Z; [|lia]. apply lt_IZR. simpl. lra.
        - intros (m & r & k & (j & Hj & -> & Hpos) & Hr & Hk & Hi & Eq). exists j. apply nearest_spec in Hr. destruct Hr as [Hr R0].
          split; [split; [lia|apply Iff; exact Hpos]|]. unfold S. cbv zeta. rewrite Hr. split; [exact Hi|]. exists k. split; [exact Hk|exact Eq]. }
      split; intros X; [apply Pa; apply Iff2; exact X|apply Pb; rewrite Iff2; exact X].
Qed.

Lemma cylindrical_content prograde iv jv ordinate abscissa f h : 0 < iv -> 0 < jv ->
  (forall n, grid_latitude iv n -> ordinate (Num n) = Num (f n)) ->
  (forall m, grid_longitude jv m -> abscissa (Num m) = Num (h m) /\ - (1 / 2) < h m < 2 ^ 64 - 1 / 2) ->
  exists g n0, (forall fuel, (n0 <= fuel)%nat ->
    make_grid samples lines (fun g => then_loop
      (latitude_lines L fuel samples lines (Num iv : ar_num) ordinate g)
      (longitude_lines L fuel prograde samples lines (Num jv : ar_num) abscissa)) = Some (Ok g)) /\
    black_or_white (samples * lines) g /\
    forall k i, (0 <= k < lines)%Z -> (0 <= i < samples)%Z ->
      (white_at samples g k i <->
       (exists n, grid_latitude iv n /\ nearest (f n) k) \/
       (exists m r, grid_longitude jv m /\ nearest (h m) r /\ i = (if prograde then samples - r else r)%Z)).
Proof.
  intros Hiv Hjv Hf Hh. pose proof (blank_bw samples lines Hmap) as [B0 _].
  destruct (latitude_content iv ordinate f _ Hiv Hf B0) as (g1 & n1 & E1 & P1).
  assert (B1 : Z.of_nat (length g1) = (samples * lines)%Z) by (destruct P1 as [-> _]; exact B0).
  destruct (longitude_content prograde jv abscissa h g1 Hjv Hh B1) as (g2 & n2 & E2 & P2).
  exists g2, (Nat.max n1 n2).
  assert (Run : forall fuel, (Nat.max n1 n2 <= fuel)%nat ->
    make_grid samples lines (fun g => then_loop
      (latitude_lines L fuel samples lines (Num iv : ar_num) ordinate g)
      (longitude_lines L fuel prograde samples lines (Num jv : ar_num) abscissa)) = Some (Ok g2)).
  { intros fuel Hf2. unfold make_grid. rewrite E1 by lia. cbn [then_loop]. apply E2. lia. }
  split; [exact Run|]. split.
  - pose proof (cylindrical_safe L samples lines Hmap num_converts (num_row_starts c low samples lines Hmap)
      (Nat.max n1 n2) prograde (Num iv : ar_num) (Num jv : ar_num) ordinate abscissa) as D.
    rewrite Run in D by lia. exact D.
  - intros k i Hk Hi. destruct Hmap as (S0 & L0 & Hn).
    assert (Hq : (0 <= k * samples + i < samples * lines)%Z) by nia.
    destruct P1 as [Pl1 P1]. destruct P2 as [Pl2 P2]. rewrite B1 in P2. rewrite B0 in P1.
    destruct (P1 _ Hq) as [P1a P1b]. destruct (P2 _ Hq) as [P2a P2b]. unfold white_at.
    assert (Bl : nth_error (repeat 0%Z (Z.to_nat (wrap (samples * lines)))) (Z.to_nat (k * samples + i)) = Some 0%Z).
    { apply nth_error_repeat. rewrite wrap_id; [lia|]. change size_mod with (2 ^ 64)%Z. lia. }
    rewrite Bl in P1b.
    assert (Row : (exists n k', grid_latitude iv n /\ nearest (f n) k' /\ (k' < lines)%Z /\
        (k' * samples <= k * samples + i < k' * samples + samples)%Z) <-> (exists n, grid_latitude iv n /\ nearest (f n) k)).
    { split.
      - intros (n & k' & G & Ne & _ & Hq'). exists n. split; [exact G|]. replace k with k' by nia. exact Ne.
      - intros (n & G & Ne). exists n, k. split; [exact G|]. split; [exact Ne|]. lia. }
    assert (Col : (exists m r k', grid_longitude jv m /\ nearest (h m) r /\ (0 <= k' < lines)%Z /\
        (0 <= (if prograde then samples - r else r) < samples)%Z /\
        (k * samples + i = k' * samples + if prograde then samples - r else r)%Z) <->
      (exists m r, grid_longitude jv m /\ nearest (h m) r /\ i = (if prograde then samples - r else r)%Z)).
    { split.
      - intros (m & r & k' & G & Ne & Hk' & Hi' & Eq). exists m, r. split; [exact G|]. split; [exact Ne|].
        assert (k' = k) by nia. subst k'. lia.
      - intros (m & r & G & Ne & Eq). exists m, r, k. rewrite <- Eq. split; [exact G|]. split; [exact Ne|]. lia. }
    rewrite Row in P1a, P1b. rewrite Col in P2a, P2b.
    destruct (Classical_Prop.classic (exists m r, grid_longitude jv m /\ nearest (h m) r /\ i = (if prograde then samples - r else r)%Z)) as [C|C].
    + split; [intros _; right; exact C|intros _; apply P2a; exact C].
    + rewrite P2b by exact C.
      destruct (Classical_Prop.classic (exists n, grid_latitude iv n /\ nearest (f n) k)) as [D|D].
      * split; [intros _; left; exact D|intros _; apply P1a; exact D].
      * rewrite P1b by exact D. split; [intros X; discriminate|intros [X|X]; contradiction].
Qed.
End Content.

(** * Simple cylindrical *)
Section SimpleCylindrical.
Context (c low : R) (Hc : 0 < c).
Local Notation L := (libm_num c low).

(** A map with edges at the given degrees. *)
Definition edges (lo hi a b : R) (gl : bool) : simple_cyl ar_num :=
  @SimpleCyl ar_num (Num (c / 180 * lo)) (Num (c / 180 * hi)) (Num (c / 180 * a)) (Num (c / 180 * b)) gl.

Lemma to_degrees x : num_div (Num (c / 180 * x)) (Num (c / 180)) = Num x.
Proof. rewrite num_divide by lra. f_equal. field. lra. Qed.

Lemma sc_grid_content prograde lo hi a b gl samples lines iv jv : map_size samples lines ->
  0 < iv -> 0 < jv -> lo < hi -> a < b -> -360 <= a <= 0 -> 360 * IZR samples < (2 ^ 64 - 1) * (b - a) ->
  exists g n0, (forall fuel, (n0 <= fuel)%nat ->
    make_grid samples lines (sc_plot_grid L prograde (edges lo hi a b gl) fuel samples lines
      (Num iv : ar_num) (Num jv : ar_num)) = Some (Ok g)) /\
    black_or_white (samples * lines) g /\
    forall k i, (0 <= k < lines)%Z -> (0 <= i < samples)%Z ->
      (white_at samples g k i <->
       (exists n, grid_latitude iv n /\ nearest ((n - lo) / (hi - lo) * IZR lines) k) \/
       (exists m m' r, grid_longitude jv m /\ same_degrees m' m /\ a < m' <= a + 360 /\
          nearest ((m' - a) / (b - a) * IZR samples) r /\ i = (if prograde then samples - r else r)%Z)).
Proof.
  intros Hmap Hiv Hjv Hlo Hab Ha Hbig.
  set (h := fun m => ((if Rlt_bool 360 (m - a) then m - 360 else m) - a) / (b - a) * IZR samples).
  assert (Hm' : forall m, grid_longitude jv m -> let m' := (if Rlt_bool 360 (m - a) then m - 360 else m) in
     same_degrees m' m /\ a < m' <= a + 360).
  { intros m (j & Hj & -> & Hpos). cbv zeta.
    assert (0 <= IZR j * jv) by (apply Rmult_le_pos; [apply IZR_le in Hj; exact Hj|lra]).
    case Rlt_bool_spec; intros B.
    - split; [exists (-1)%Z; simpl; lra|lra].
    - split; [exists 0%Z; simpl; lra|lra]. }
  assert (Uniq : forall m m' , grid_longitude jv m -> same_degrees m' m -> a < m' <= a + 360 ->
     m' = (if Rlt_bool 360 (m - a) then m - 360 else m)).
  { intros m m' G (j & Ej) Hm. destruct (Hm' m G) as [(j' & Ej') Hb]. set (m'' := if Rlt_bool 360 (m - a) then m - 360 else m) in *.
    assert (j = j'); [|subst j'; lra].
    assert (-1 < j - j' < 1)%Z; [|lia]. split; apply lt_IZR; rewrite minus_IZR; simpl; lra. }
  destruct (cylindrical_content c low samples lines Hmap prograde iv jv
    (fun n => a_mul ar_num (a_sub ar_num n (Num lo)) (a_div ar_num (a_of_Z ar_num lines) (a_sub ar_num (Num hi) (Num lo))))
    (fun m => let lo_lon_2 := if a_lt ar_num (a_of_Z ar_num 360) (a_sub ar_num m (Num a)) then a_add ar_num (Num a) (a_of_Z ar_num 360) else (Num a : ar_num) in
       a_mul ar_num (a_sub ar_num m lo_lon_2) (a_div ar_num (a_of_Z ar_num samples) (a_sub ar_num (Num b) (Num a))))
    (fun n => (n - lo) / (hi - lo) * IZR lines) h Hiv Hjv) as (g & n0 & E & B & C).
  - intros n G. cbn [a_mul a_sub a_div a_of_Z ar_num num2]. rewrite num_divide by lra. cbn [num2]. f_equal. field. lra.
  - intros m G. cbn [a_mul a_sub a_div a_of_Z a_lt a_add ar_num num2 num_lt]. rewrite num_divide by lra.
    pose proof (Hm' m G) as [_ Hb]. unfold h. split.
    + case Rlt_bool_spec; intros B1; cbn [num2]; f_equal; field; lra.
    + cbv zeta in Hb. set (m' := if Rlt_bool 360 (m - a) then m - 360 else m) in *.
      assert (S0 : 0 <= IZR samples) by (apply IZR_le; apply Hmap).
      assert (Q : 0 < (m' - a) / (b - a)) by (apply Rdiv_lt_0_compat; lra).
      split; [apply Rlt_le_trans with 0; [lra|]; apply Rmult_le_pos; lra|].
      apply Rle_lt_trans with (360 * IZR samples / (b - a)).
      { replace ((m' - a) / (b - a) * IZR samples) with ((m' - a) * IZR samples * / (b - a)) by (field; lra).
        unfold Rdiv. apply Rmult_le_compat_r; [left; apply Rinv_0_lt_compat; lra|]. apply Rmult_le_compat_r; lra. }
      apply Rlt_trans with (2 ^ 64 - 1); [|lra]. apply (Rmult_lt_reg_r (b - a)); [lra|].
      unfold Rdiv. rewrite Rmult_assoc, Rinv_l by lra. lra.
  - exists g, n0. split; [|split; [exact B|]].
    + intros fuel Hfu. rewrite <- (E fuel Hfu). unfold make_grid, sc_plot_grid, edges.
      cbn [sc_lo_lat sc_hi_lat sc_lo_lon sc_hi_lon a_div ar_num libm_num l_degree]. rewrite !to_degrees. reflexivity.
    + intros k i Hk Hi. rewrite (C k i Hk Hi). apply or_iff_compat_l. split.
      * intros (m & r & G & Ne & Eq). destruct (Hm' m G) as [Sm Hb]. eexists m, _, r.
        split; [exact G|]. split; [exact Sm|]. split; [exact Hb|]. split; [exact Ne|exact Eq].
      * intros (m & m' & r & G & Sm & Hb & Ne & Eq). exists m, r. split; [exact G|]. split; [|exact Eq].
        unfold h. rewrite <- (Uniq m m' G Sm Hb). exact Ne.
Qed.
End SimpleCylindrical.
