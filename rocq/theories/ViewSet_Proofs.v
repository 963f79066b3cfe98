(** Lemmas for C41. *)
From Coq Require Import List ZArith Reals Lra Lia Bool.
From Flocq Require Import Core BinarySingleNaN.
From Verif Require Import Base Flt FltFacts Num LinAlg_Model Maths_Model Maths_Spec Maths_Proofs 
  Spheroid_Model View_Model View_Spec.
Open Scope R_scope.
#[local] Existing Instance prec53.
#[local] Existing Instance emax53.

Lemma member_eqb_spec a b : reflect (a = b) (member_eqb a b).
Proof. destruct a, b; cbn; constructor; congruence. Qed.

Lemma set_stored {A : arith} m (x : A) g : stored m x g (set m x g, None).
Proof.
  unfold stored, set. cbn [fst snd]. split; [reflexivity|]. split.
  - destruct (member_eqb_spec m m); congruence.
  - intros k N. destruct (member_eqb_spec m k); congruence.
Qed.

Lemma a_le_double (x y : double) :
  a_le (A := ar_double) x y = negb (is_nan x) && negb (is_nan y) && Rle_bool (fval x) (fval y).
Proof.
  unfold a_le. cbn [a_isnan a_lt ar_double].
  destruct (is_nan x) eqn:Nx; [reflexivity|]. destruct (is_nan y) eqn:Ny; [reflexivity|].
  rewrite flt_spec by assumption. cbn [negb andb]. 
  destruct (Rlt_bool_spec (fval y) (fval x)); [now rewrite Rle_bool_false by lra|now rewrite Rle_bool_true by lra].
Qed.

Section Doubles.
Context (degree pi twopi max_range : double) (cosine : double -> double) (eq pol : double).
Let G := geom ar_double.

Lemma setter_latitude m (x : double) (g : G) :
  (angle_ok 90 x -> stored m (Bmult mode_NE x degree : ar_double) g (set_latitude (A := ar_double) degree m x g)) /\
  (~ angle_ok 90 x -> rejected invalid_argument g (set_latitude (A := ar_double) degree m x g)).
Proof.
  unfold set_latitude. rewrite (proj1 (validate_doubles degree x)). unfold angle_ok.
  destruct (is_nan x); cbn [negb andb].
  - split; [intros [? _]; discriminate|reflexivity].
  - destruct (Rle_bool_spec (- (90)) (fval x)), (Rle_bool_spec (fval x) 90); cbn [andb];
      (split; [intros [_ ?]; first [apply set_stored | exfalso; lra]|intros N; first [reflexivity | exfalso; apply N; split; [reflexivity|lra]]]).
Qed.

Lemma setter_position_angle (x : double) (g : G) :
  (angle_ok 360 x -> stored position_angle_ (Bmult mode_NE x degree : ar_double) g (set_position_angle (A := ar_double) degree x g)) /\
  (~ angle_ok 360 x -> rejected invalid_argument g (set_position_angle (A := ar_double) degree x g)).
Proof.
  unfold set_position_angle. rewrite (proj2 (proj2 (validate_doubles degree x))). unfold angle_ok.
  destruct (is_nan x); cbn [negb andb].
  - split; [intros [? _]; discriminate|reflexivity].
  - destruct (Rle_bool_spec (- (360)) (fval x)), (Rle_bool_spec (fval x) 360); cbn [andb];
      (split; [intros [_ ?]; first [apply set_stored | exfalso; lra]|intros N; first [reflexivity | exfalso; apply N; split; [reflexivity|lra]]]).
Qed.

Lemma setter_longitude m (x : double) (g : G) :
  (angle_ok 360 x -> stored m (positive_equivalent twopi (Bmult mode_NE x degree) : ar_double) g (set_longitude (A := ar_double) degree twopi m x g)) /\
  (~ angle_ok 360 x -> rejected invalid_argument g (set_longitude (A := ar_double) degree twopi m x g)).
Proof.
  unfold set_longitude. rewrite (proj1 (proj2 (validate_doubles degree x))). unfold angle_ok.
  destruct (is_nan x); cbn [negb andb].
  - split; [intros [? _]; discriminate|reflexivity].
  - destruct (Rle_bool_spec (- (360)) (fval x)), (Rle_bool_spec (fval x) 360); cbn [andb];
      (split; [intros [_ ?]; first [apply set_stored | exfalso; lra]|intros N; first [reflexivity | exfalso; apply N; split; [reflexivity|lra]]]).
Qed.

Lemma setter_position m (x : double) (g : G) :
  (is_nan x = false -> stored m (x : ar_double) g (set_position (A := ar_double) m x g)) /\
  (is_nan x = true -> rejected invalid_argument g (set_position (A := ar_double) m x g)).
Proof.
  unfold set_position. cbn [a_isnan ar_double].
  destruct (is_nan x); (split; intros E; first [discriminate | apply set_stored | reflexivity]).
Qed.

Lemma zero_val : is_nan (double_of_Z 0) = false /\ fval (double_of_Z 0) = 0.
Proof.
  destruct (double_of_Z_exact 0) as [F0 E0]; [lia|]. split; [now apply finite_not_nan|].
  rewrite fval_finite by exact F0. exact E0.
Qed.

Lemma le_zero (x : double) : is_nan x = false -> a_le (A := ar_double) x (double_of_Z 0 : ar_double) = Rle_bool (fval x) 0.
Proof. intros N. rewrite a_le_double, N. destruct zero_val as [-> ->]. reflexivity. Qed.

Lemma setter_positive m (x : double) (g : G) : is_nan x = false ->
  (0 < fval x -> stored m (x : ar_double) g (set_positive (A := ar_double) m x g)) /\
  (fval x <= 0 -> rejected invalid_argument g (set_positive (A := ar_double) m x g)).
Proof.
  intros N. unfold set_positive. cbn [a_of_Z ar_double]. rewrite le_zero by exact N.
  destruct (Rle_bool_spec (fval x) 0); (split; intros; first [apply set_stored | reflexivity | exfalso; lra]).
Qed.

Lemma setter_arcsec (x : double) (g : G) : is_nan x = false ->
  (fval x <= 0 -> rejected invalid_argument g (set_arcsec_per_pixel (A := ar_double) pi x g)) /\
  (0 < fval x -> is_nan (g range_) = true -> rejected logic_error g (set_arcsec_per_pixel (A := ar_double) pi x g)) /\
  (0 < fval x -> is_nan (g range_) = false ->
   stored km_per_pixel_ (Bmult mode_NE (Bmult mode_NE (Bdiv mode_NE pi (double_of_Z 648000)) x) (g range_) : ar_double) g
          (set_arcsec_per_pixel (A := ar_double) pi x g)).
Proof.
  intros N. unfold set_arcsec_per_pixel. cbn [a_of_Z a_isnan a_mul a_div ar_double]. rewrite le_zero by exact N.
  destruct (Rle_bool_spec (fval x) 0).
  - split; [reflexivity|]. split; intros; lra.
  - split; [intros; lra|]. split; intros _ ->; [reflexivity|apply set_stored].
Qed.

Lemma setter_range (r : double) (g : G) :
  is_nan r = false -> is_nan eq = false -> is_nan pol = false -> is_nan max_range = false ->
  (Rmin (fval eq) (fval pol) < fval r < fval max_range -> stored range_ (r : ar_double) g (set_range (A := ar_double) max_range eq pol r g)) /\
  (~ (Rmin (fval eq) (fval pol) < fval r < fval max_range) -> rejected invalid_argument g (set_range (A := ar_double) max_range eq pol r g)).
Proof.
  intros Nr Ne Np Nm. unfold set_range. cbv zeta. cbn [a_lt ar_double]. rewrite flt_spec by assumption.
  change (if Rlt_bool (fval pol) (fval eq) then pol : ar_double else eq) with (if Rlt_bool (fval pol) (fval eq) then pol else eq).
  set (m := if Rlt_bool (fval pol) (fval eq) then pol else eq).
  assert (Nmin : is_nan m = false) by (unfold m; destruct (Rlt_bool _ _); assumption).
  assert (Emin : fval m = Rmin (fval eq) (fval pol)).
  { unfold m. destruct (Rlt_bool_spec (fval pol) (fval eq)); [rewrite Rmin_right by lra|rewrite Rmin_left by lra]; reflexivity. }
  rewrite !a_le_double, Nr, Nmin, Nm, Emin. cbn [negb andb].
  destruct (Rle_bool_spec (fval r) (Rmin (fval eq) (fval pol))), (Rle_bool_spec (fval max_range) (fval r)); cbn [orb];
    (split; intros; first [apply set_stored | reflexivity | exfalso; lra]).
Qed.

Lemma setter_emi (x : double) (g : G) : is_nan x = false ->
  (angle_ok 90 x -> stored mu_limit_ (cosine (Bmult mode_NE x degree) : ar_double) g (set_emi_ang_limit (A := ar_double) degree cosine x g)) /\
  (~ angle_ok 90 x -> rejected domain_error g (set_emi_ang_limit (A := ar_double) degree cosine x g)).
Proof.
  intros N. unfold set_emi_ang_limit, angle_ok. cbn [a_lt a_of_Z a_abs a_mul ar_double].
  destruct (double_of_Z_exact 90) as [F0 E0]; [lia|].
  assert (Na : is_nan (Babs x) = false) by (destruct x; auto).
  rewrite flt_spec by (try assumption; now apply finite_not_nan).
  rewrite (fval_finite (double_of_Z 90)) by exact F0. rewrite E0.
  assert (A : fval (Babs x) = Rabs (fval x)).
  { destruct x as [s|s| |s mm e H]; try discriminate; cbn [Babs].
    - cbn. symmetry. apply Rabs_R0.
    - unfold fval. assert (0 < inf_val 1024) by (apply bpow_gt_0).
      destruct s; [rewrite Rabs_left|rewrite Rabs_right]; lra.
    - rewrite !fval_finite by reflexivity. unfold B2R. rewrite <- F2R_Zabs. cbn [cond_Zopp Z.abs]. now rewrite abs_cond_Zopp. }
  rewrite A, N. 
  assert (AL : Rabs (fval x) <= 90 <-> - (90) <= fval x <= 90).
  { unfold Rabs. destruct (Rcase_abs (fval x)); lra. }
  destruct (Rlt_bool_spec 90 (Rabs (fval x))).
  - split; [intros [_ HH]; apply AL in HH; lra|reflexivity].
  - split; [intros; apply set_stored|]. intros NN. exfalso. apply NN. split; [reflexivity|]. now apply AL.
Qed.

(** NaN passes the comparisons of these setters. *)
Lemma setter_nan (g : G) : is_nan (g range_) = false -> forall x : double, is_nan x = true ->
  stored km_per_pixel_ (x : ar_double) g (set_positive (A := ar_double) km_per_pixel_ x g) /\
  stored focal_length_ (x : ar_double) g (set_positive (A := ar_double) focal_length_ x g) /\
  stored scale_ (x : ar_double) g (set_positive (A := ar_double) scale_ x g) /\
  stored range_ (x : ar_double) g (set_range (A := ar_double) max_range eq pol x g) /\
  (exists y, stored km_per_pixel_ y g (set_arcsec_per_pixel (A := ar_double) pi x g)) /\
  (exists y, stored mu_limit_ y g (set_emi_ang_limit (A := ar_double) degree cosine x g)).
Proof.
  intros Hg x N.
  assert (L : forall y, a_le (A := ar_double) x y = false) by (intros y; rewrite a_le_double, N; reflexivity).
  assert (L' : forall y, a_le (A := ar_double) y x = false).
  { intros y; rewrite a_le_double, N. now rewrite andb_false_r. }
  unfold set_positive, set_range, set_arcsec_per_pixel, set_emi_ang_limit. cbv zeta. rewrite !L, !L'.
  cbn [a_isnan a_lt a_abs ar_double orb]. rewrite Hg.
  split; [apply set_stored|]. split; [apply set_stored|]. split; [apply set_stored|]. split; [apply set_stored|].
  split; [eexists; apply set_stored|]. destruct x; try discriminate. eexists. apply set_stored.
Qed.

(** Setting a pair: an invalid second value leaves the first one stored. *)
Lemma setter_pair m1 m2 (lat lon : double) (g : G) :
  angle_ok 90 lat -> ~ angle_ok 360 lon ->
  snd (set_lat_lon (A := ar_double) degree twopi m1 m2 lat lon g) = Some invalid_argument /\
  fst (set_lat_lon (A := ar_double) degree twopi m1 m2 lat lon g) m1 = Bmult mode_NE lat degree.
Proof.
  intros A B. unfold set_lat_lon. destruct (proj1 (setter_latitude m1 lat g) A) as (S & E & _).
  destruct (set_latitude (A := ar_double) degree m1 lat g) as [g' [e|]]; [discriminate|]. cbn [then_ fst snd] in *.
  rewrite (proj2 (setter_longitude m2 lon g') B). split; [reflexivity|exact E].
Qed.

Lemma setter_pair_ok m1 m2 (lat lon : double) (g : G) : m1 <> m2 ->
  angle_ok 90 lat -> angle_ok 360 lon ->
  let r := set_lat_lon (A := ar_double) degree twopi m1 m2 lat lon g in
  snd r = None /\ fst r m1 = Bmult mode_NE lat degree /\ fst r m2 = positive_equivalent twopi (Bmult mode_NE lon degree) /\
  forall k, k <> m1 -> k <> m2 -> fst r k = g k.
Proof.
  intros N A B. cbv zeta. unfold set_lat_lon. destruct (proj1 (setter_latitude m1 lat g) A) as (S & E & F).
  destruct (set_latitude (A := ar_double) degree m1 lat g) as [g' [e|]]; [discriminate|]. cbn [then_ fst snd] in *.
  destruct (proj1 (setter_longitude m2 lon g') B) as (S' & E' & F').
  split; [exact S'|]. split; [rewrite F'; auto|]. split; [exact E'|]. intros k K1 K2. rewrite F', F; auto.
Qed.

Lemma setter_positions_ok m1 m2 (sample line : double) (g : G) : m1 <> m2 ->
  is_nan sample = false -> is_nan line = false ->
  let r := set_positions (A := ar_double) m1 m2 sample line g in
  snd r = None /\ fst r m1 = sample /\ fst r m2 = line /\ forall k, k <> m1 -> k <> m2 -> fst r k = g k.
Proof.
  intros N A B. cbv zeta. unfold set_positions. destruct (proj1 (setter_position m1 sample g) A) as (S & E & F).
  destruct (set_position (A := ar_double) m1 sample g) as [g' [e|]]; [discriminate|]. cbn [then_ fst snd] in *.
  destruct (proj1 (setter_position m2 line g') B) as (S' & E' & F').
  split; [exact S'|]. split; [rewrite F'; auto|]. split; [exact E'|]. intros k K1 K2. rewrite F', F; auto.
Qed.

Lemma setter_positions_bad m1 m2 (sample line : double) (g : G) : is_nan sample = false -> is_nan line = true ->
  snd (set_positions (A := ar_double) m1 m2 sample line g) = Some invalid_argument /\
  fst (set_positions (A := ar_double) m1 m2 sample line g) m1 = sample.
Proof.
  intros A B. unfold set_positions. destruct (proj1 (setter_position m1 sample g) A) as (S & E & _).
  destruct (set_position (A := ar_double) m1 sample g) as [g' [e|]]; [discriminate|]. cbn [then_ fst snd] in *.
  rewrite (proj2 (setter_position m2 line g') B). split; [reflexivity|exact E].
Qed.
End Doubles.
