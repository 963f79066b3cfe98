(** Contents of the grids of polar stereographic maps (C49). *)
From Coq Require Import List ZArith Reals Lra Lia Bool.
From Flocq Require Import Core BinarySingleNaN.
From Verif Require Import Base BaseFacts Flt FltFacts Num Maths_Model Maths_Spec Maths_Proofs Spheroid_Model
  Spheroid_Proofs Proj_Model Proj_Spec Proj_Proofs ProjGrid_Proofs ProjGridR_Proofs ProjMerc_Proofs ProjPolar_Proofs
  LinAlg_Model Ortho_Model Ortho_Spec OrthoGrid_Proofs OrthoGridR_Proofs PolarGrid_Spec.
Import ListNotations.
Open Scope R_scope.
Local Notation sr := stereographic_radius.

Lemma both_dec (x : bool) (o : option Z) q : {x = true /\ o = Some q} + {~ (x = true /\ o = Some q)}.
Proof. destruct x; [|right; intros [H _]; discriminate]. destruct (opt_dec o q); [left|right]; tauto. Qed.

Section Radius.
Context (e : R) (He : 0 <= e < 1).

Lemma impl_num low C x : cos (PI / 4 - x / 2) <> 0 ->
  stereo_rho_impl (libm_num PI low) (Num e : ar_num) (Num C : ar_num) (Num x : ar_num) = Num (C * sr e x).
Proof.
  intros H. unfold stereo_rho_impl. nums. pose proof (t_bound e He x) as T. rewrite !num_divide by lra. nums.
  rewrite Req_bool_false by exact H.
  rewrite (Req_bool_false (e / 2)) by lra. rewrite Rlt_bool_true by (apply Rdiv_lt_0_compat; lra). nums.
  unfold sr. f_equal. ring.
Qed.

Lemma impl_nan low C x : cos (PI / 4 - x / 2) = 0 ->
  stereo_rho_impl (libm_num PI low) (Num e : ar_num) (Num C : ar_num) (Num x : ar_num) = NaN.
Proof.
  intros H. unfold stereo_rho_impl. nums. rewrite (num_divide x 2) by lra. nums.
  rewrite Req_bool_true by exact H. reflexivity.
Qed.

Lemma sr_turn x : sr e (x + 2 * PI) = sr e x.
Proof.
  unfold sr. replace (PI / 4 - (x + 2 * PI) / 2) with (PI / 4 - x / 2 - PI) by field.
  rewrite (sin_plus x (2 * PI)), sin_2PI, cos_2PI. replace (sin x * 1 + cos x * 0) with (sin x) by ring. f_equal.
  unfold tan. replace (PI / 4 - x / 2 - PI) with (- (PI - (PI / 4 - x / 2))) by ring.
  rewrite sin_neg, cos_neg, Rtrigo_facts.sin_pi_minus, Rtrigo_facts.cos_pi_minus.
  unfold Rdiv. rewrite Rinv_opp. ring.
Qed.

Lemma sr_over x : sr e (PI - x) = - sr e x.
Proof.
  unfold sr. replace (PI / 4 - (PI - x) / 2) with (- (PI / 4 - x / 2)) by field.
  rewrite tan_neg, Rtrigo_facts.sin_pi_minus. ring.
Qed.
End Radius.

Section Grid.
Context (low eq pol : R) (Hp : 0 < pol) (Hep : pol <= eq) (north : bool).
Context (samples lines : Z) (Hmap : map_size samples lines) (S2 : (2 <= samples)%Z) (L2 : (2 <= lines)%Z).
Context (d : R) (Hd : -90 < d < 90) (iv jv : R) (Hiv : 0 < iv) (Hjv : 0 < jv).
Local Notation e := (first_eccentricity eq pol).
Local Notation L := (libm_num PI low).
Local Notation p := (@Polar ar_num (Num (d * (PI / 180))) north).
Let He := ecc_range eq pol Hp Hep.
Local Notation Co := (polar_coeff e eq).
Local Notation gr := (graphic_latitude eq pol).
Local Notation s x := (if north then (x : R) else - (x : R)).

Definition pg_edge : R := 2 * sr e (s (gr (d * (PI / 180)))) / IZR (Z.min (samples - 1) (lines - 1)).

Lemma gr_in x : - (PI / 2) < x < PI / 2 -> - (PI / 2) < s (gr x) < PI / 2.
Proof.
  intros H. assert (- (PI / 2) < gr x < PI / 2).
  { unfold graphic_latitude, atan_ktan. rewrite Req_bool_false by (apply Rgt_not_eq, cos_gt_0; lra).
    match goal with |- _ < atan ?a < _ => pose proof (atan_bound a); lra end. }
  destruct north; lra.
Qed.

Lemma cos_in x : - (PI / 2) < x <= PI / 2 -> cos (PI / 4 - x / 2) <> 0.
Proof. intros H. pose proof PI_RGT_0. apply Rgt_not_eq. apply cos_gt_0; lra. Qed.

Lemma edge_pos : 0 < pg_edge.
Proof.
  unfold pg_edge. apply Rdiv_lt_0_compat.
  - pose proof (sr_pos e He _ (gr_in _ (polar_range d Hd))). lra.
  - apply (IZR_lt 0). lia.
Qed.

(** The cell at a position given in cells, if inside the map. *)
Definition pcell (x z : R) : option Z :=
  let i := ZnearestA x in let k := ZnearestA z in
  if (0 <=? i)%Z && (i <? samples)%Z && (0 <=? k)%Z && (k <? lines)%Z then Some (k * samples + i)%Z else None.

Lemma pcell_spec x z k i : (0 <= k < lines)%Z -> (0 <= i < samples)%Z ->
  (pcell x z = Some (k * samples + i)%Z <-> nearest x i /\ nearest z k).
Proof.
  intros Hk Hi. rewrite !nearest_spec. unfold pcell. cbv zeta.
  set (a := ZnearestA x). set (b := ZnearestA z).
  destruct (Z.leb_spec 0 a), (Z.ltb_spec a samples), (Z.leb_spec 0 b), (Z.ltb_spec b lines); cbn [andb];
    (split; [intros E; try discriminate|intros [[E1 _] [E2 _]]; try (exfalso; lia)]).
  - injection E as E. assert (b = k) by nia. subst b. lia.
  - rewrite E1, E2. reflexivity.
Qed.

(** A dot at a stereographic radius that is a number. *)
Lemma pdot_spec r m g : Z.of_nat (length g) = (samples * lines)%Z ->
  exists g', polar_dot L samples lines (Num (Co * pg_edge) : ar_num) (Num (Co * r) : ar_num) (Num m : ar_num) g = Ok g' /\
    painted g g' (fun q => pcell (r * sin m / pg_edge + IZR samples / 2) (r * cos m / pg_edge + IZR lines / 2) = Some q).
Proof.
  intros Hg. pose proof edge_pos as Pe. pose proof (polar_coeff_pos e eq ltac:(lra)) as Pc.
  unfold polar_dot. nums. rewrite !num_divide by nra. nums.
  replace (Co * r * cos m / (Co * pg_edge)) with (r * cos m / pg_edge) by (field; lra).
  replace (Co * r * sin m / (Co * pg_edge)) with (r * sin m / pg_edge) by (field; lra).
  set (x := r * sin m / pg_edge + IZR samples / 2). set (z := r * cos m / pg_edge + IZR lines / 2).
  assert (T1 : forall u v, a_le ar_num (Num (IZR u) : ar_num) (Num (IZR v) : ar_num) = (u <=? v)%Z).
  { intros u v. apply Rle_test. rewrite Z.leb_le. split; [apply IZR_le|apply le_IZR]. }
  assert (T2 : forall u v, num_lt (Num (IZR u)) (Num (IZR v)) = (u <? v)%Z).
  { intros u v. unfold num_lt. case Rlt_bool_spec; intros H; symmetry; [apply Z.ltb_lt; apply lt_IZR; exact H|apply Z.ltb_ge; apply le_IZR; exact H]. }
  assert (R1 : forall w, num_round (Num w) = Num (IZR (ZnearestA w))) by (intros w; apply (round_num PI low)).
  rewrite !R1, !T1, !T2. unfold pcell. cbv zeta. set (a := ZnearestA x). set (b := ZnearestA z).
  destruct Hmap as (M1 & M2 & M3).
  destruct (Z.leb_spec 0 a) as [A0|A0], (Z.ltb_spec a samples) as [A1|A1], (Z.leb_spec 0 b) as [B0|B0], (Z.ltb_spec b lines) as [B1|B1]; cbn [andb].
  2-16: exists g; split; [reflexivity|]; apply painted_none; intros q _ H; discriminate H.
  rewrite !num_size_IZR by (change size_mod with (2 ^ 64)%Z; lia). cbn [bind].
  rewrite (wrap_id (b * samples)) by (change size_mod with (2 ^ 64)%Z; nia). rewrite wrap_id by (change size_mod with (2 ^ 64)%Z; nia).
  destruct (put_painted g (b * samples + a)) as (g' & E' & P); [rewrite Hg; nia|]. exists g'. split; [exact E'|].
  eapply painted_ext; [exact P|]. intros q' _. split; [intros ->; reflexivity|intros [= ->]; reflexivity].
Qed.

Lemma pdot_nan pix m g : polar_dot L samples lines pix (NaN : ar_num) (Num m : ar_num) g = Ok g.
Proof. unfold polar_dot. destruct pix; reflexivity. Qed.

Definition turn_step (n : Z) : R := IZR n / 2000 * (PI / 180) * 360.
Definition spot (r m : R) : option Z := pcell (r * sin m / pg_edge + IZR samples / 2) (r * cos m / pg_edge + IZR lines / 2).

Lemma rho_num x : cos (PI / 4 - s x / 2) <> 0 ->
  stereo_rho L (Num eq : ar_num) (Num e : ar_num) p (Num x : ar_num) = Num (Co * sr e (s x)).
Proof.
  intros H. unfold stereo_rho. cbn [ps_north]. rewrite rho_coefficient_num by exact He. rewrite <- (impl_num e He low) by exact H.
  destruct north; [reflexivity|]. unfold neg. nums. f_equal. f_equal. ring.
Qed.
Lemma rho_nan x : cos (PI / 4 - s x / 2) = 0 ->
  stereo_rho L (Num eq : ar_num) (Num e : ar_num) p (Num x : ar_num) = NaN.
Proof.
  intros H. unfold stereo_rho. cbn [ps_north]. rewrite rho_coefficient_num by exact He.
  rewrite <- (impl_nan e low Co _ H). destruct north; [reflexivity|]. unfold neg. nums. f_equal. f_equal. ring.
Qed.

Lemma pix_num : a_div ar_num (a_mul ar_num (a_of_Z ar_num 2) (stereo_rho L (Num eq : ar_num) (Num e : ar_num) p (num_graphic eq pol (Num (d * (PI / 180))))))
    (a_of_Z ar_num (Z.min (wrap (samples - 1)) (wrap (lines - 1)))) = Num (Co * pg_edge).
Proof.
  destruct Hmap as (M1 & M2 & M3).
  unfold num_graphic. cbn [num1]. rewrite rho_num.
  2:{ apply cos_in. pose proof (gr_in _ (polar_range d Hd)). lra. }
  rewrite !wrap_id by (change size_mod with (2 ^ 64)%Z; lia). nums.
  assert (IZR (Z.min (samples - 1) (lines - 1)) <> 0) by (apply not_0_IZR; lia).
  rewrite num_divide by assumption. f_equal. unfold pg_edge. field. assumption.
Qed.

Lemma turn_num m : a_mul ar_num (a_mul ar_num (a_div ar_num (a_of_Z ar_num m) (a_of_Z ar_num 2000)) (l_degree L)) (a_of_Z ar_num 360) = Num (turn_step m).
Proof. nums. rewrite num_divide by lra. reflexivity. Qed.

Local Notation lat_body := (fun n : ar_num => let rho := stereo_rho L (Num eq : ar_num) (Num e : ar_num) p (num_graphic eq pol (a_mul ar_num n (l_degree L))) in
          dots polar_imax (fun m =>
            let mm := a_mul ar_num (a_mul ar_num (a_div ar_num (a_of_Z ar_num m) (a_of_Z ar_num 2000)) (l_degree L)) (a_of_Z ar_num 360) in
            polar_dot L samples lines (Num (Co * pg_edge) : ar_num) rho mm) 0%Z).
Local Notation lon_body := (fun m : ar_num => let mm := a_mul ar_num m (l_degree L) in
          dots polar_imax (fun n =>
            let nn := a_mul ar_num (a_mul ar_num (a_div ar_num (a_of_Z ar_num n) (a_of_Z ar_num 2000)) (l_degree L)) (a_of_Z ar_num 360) in
            polar_dot L samples lines (Num (Co * pg_edge) : ar_num) (stereo_rho L (Num eq : ar_num) (Num e : ar_num) p nn) mm) 0%Z).

Lemma lat_body_spec n g : -90 < n < 90 -> Z.of_nat (length g) = (samples * lines)%Z ->
  exists g', lat_body (Num n : ar_num) g = Ok g' /\
    painted g g' (fun q => exists m, (0 <= m < 2000)%Z /\ spot (sr e (s (gr (n * (PI / 180))))) (turn_step m) = Some q).
Proof.
  intros Hn Hg. cbv zeta.
  destruct (dots_paint (fun m => polar_dot L samples lines (Num (Co * pg_edge) : ar_num)
     (stereo_rho L (Num eq : ar_num) (Num e : ar_num) p (num_graphic eq pol (a_mul ar_num (Num n : ar_num) (l_degree L))))
     (a_mul ar_num (a_mul ar_num (a_div ar_num (a_of_Z ar_num m) (a_of_Z ar_num 2000)) (l_degree L)) (a_of_Z ar_num 360)))
     polar_imax (samples * lines) (fun m q => spot (sr e (s (gr (n * (PI / 180))))) (turn_step m) = Some q)
     (fun m q => opt_dec _ _)) with (g := g) as (g' & E & P).
  - intros m g0 Hm Hg0. rewrite turn_num. replace (num_graphic eq pol (a_mul ar_num (Num n) (l_degree L))) with (Num (gr (n * (PI / 180)))) by reflexivity.
    rewrite rho_num. 2:{ apply cos_in. pose proof (gr_in _ (polar_range n Hn)). lra. }
    apply pdot_spec. exact Hg0.
  - exact Hg.
  - exists g'. split; [exact E|]. eapply painted_ext; [exact P|]. intros q _.
    change (Z.of_nat polar_imax) with 2000%Z. tauto.
Qed.

Definition okstep (n : Z) : bool := negb (n =? (if north then 1500 else 500))%Z.

Lemma okstep_true n : (0 <= n < 2000)%Z -> okstep n = true -> cos (PI / 4 - s (turn_step n) / 2) <> 0.
Proof.
  intros [H0 H1] H. unfold okstep in H. apply negb_true_iff, Z.eqb_neq in H. pose proof PI_RGT_0 as Pp.
  apply IZR_le in H0. apply IZR_lt in H1. unfold turn_step.
  set (a := PI / 4 - s (IZR n / 2000 * (PI / 180) * 360) / 2).
  assert (Ea : a = if north then PI * (500 - IZR n) / 2000 else PI * (500 + IZR n) / 2000) by (unfold a; destruct north; field).
  destruct north.
  - assert (K : (n < 1500)%Z \/ (1500 < n)%Z) by lia. destruct K as [K|K]; apply IZR_lt in K.
    + apply Rgt_not_eq, cos_gt_0; rewrite Ea; nra.
    + rewrite <- cos_neg. apply Rlt_not_eq, cos_lt_0; rewrite Ea; nra.
  - assert (K : (n < 500)%Z \/ (500 < n)%Z) by lia. destruct K as [K|K]; apply IZR_lt in K.
    + apply Rgt_not_eq, cos_gt_0; rewrite Ea; nra.
    + apply Rlt_not_eq, cos_lt_0; rewrite Ea; nra.
Qed.

Lemma okstep_false n : okstep n = false -> cos (PI / 4 - s (turn_step n) / 2) = 0.
Proof.
  intros H. unfold okstep in H. apply negb_false_iff, Z.eqb_eq in H. subst n. unfold turn_step. destruct north.
  - replace (PI / 4 - 1500 / 2000 * (PI / 180) * 360 / 2) with (- (PI / 2)) by field. rewrite cos_neg. apply cos_PI2.
  - replace (PI / 4 - - (500 / 2000 * (PI / 180) * 360) / 2) with (PI / 2) by field. apply cos_PI2.
Qed.

Lemma lon_body_spec m g : Z.of_nat (length g) = (samples * lines)%Z ->
  exists g', lon_body (Num m : ar_num) g = Ok g' /\
    painted g g' (fun q => exists n, (0 <= n < 2000)%Z /\ okstep n = true /\ spot (sr e (s (turn_step n))) (m * (PI / 180)) = Some q).
Proof.
  intros Hg. cbv zeta.
  destruct (dots_paint (fun n => polar_dot L samples lines (Num (Co * pg_edge) : ar_num)
     (stereo_rho L (Num eq : ar_num) (Num e : ar_num) p
       (a_mul ar_num (a_mul ar_num (a_div ar_num (a_of_Z ar_num n) (a_of_Z ar_num 2000)) (l_degree L)) (a_of_Z ar_num 360)))
     (a_mul ar_num (Num m : ar_num) (l_degree L)))
     polar_imax (samples * lines) (fun n q => okstep n = true /\ spot (sr e (s (turn_step n))) (m * (PI / 180)) = Some q)
     (fun n q => both_dec _ _ _)) with (g := g) as (g' & E & P).
  - intros n g0 Hn Hg0. change (Z.of_nat polar_imax) with 2000%Z in Hn. rewrite turn_num.
    replace (a_mul ar_num (Num m) (l_degree L)) with (Num (m * (PI / 180)) : ar_num) by reflexivity.
    destruct (okstep n) eqn:K.
    + rewrite rho_num by (apply okstep_true; assumption).
      destruct (pdot_spec (sr e (s (turn_step n))) (m * (PI / 180)) g0 Hg0) as (g1 & E1 & P1). exists g1. split; [exact E1|].
      eapply painted_ext; [exact P1|]. intros q _. unfold spot. tauto.
    + rewrite rho_nan by (apply okstep_false; exact K). rewrite pdot_nan. exists g0. split; [reflexivity|].
      apply painted_none. intros q _ [H _]. discriminate H.
  - exact Hg.
  - exists g'. split; [exact E|]. eapply painted_ext; [exact P|]. intros q _.
    change (Z.of_nat polar_imax) with 2000%Z. tauto.
Qed.

Lemma plat_loop g : Z.of_nat (length g) = (samples * lines)%Z ->
  exists g' n0, (forall fuel, (n0 <= fuel)%nat ->
    for_loop fuel (fun n : ar_num => a_lt ar_num n (a_of_Z ar_num 90)) (fun n => a_add ar_num n (Num iv : ar_num)) lat_body
      (a_add ar_num (a_of_Z ar_num (-90)) (Num iv : ar_num)) g = Some (Ok g')) /\
    painted g g' (fun q => exists n m, grid_latitude iv n /\ (0 <= m < 2000)%Z /\ spot (sr e (s (gr (n * (PI / 180))))) (turn_step m) = Some q).
Proof.
  intros Hg. set (N := Z.max 0 (Zceil (180 / iv) - 1)). set (v := fun j : Z => (Num (-90 + IZR (j + 1) * iv) : ar_num)).
  assert (HT : forall j, (0 <= j)%Z -> (j < N)%Z <-> -90 + IZR (j + 1) * iv < 90).
  { intros j Hj. assert (E : (j < N)%Z <-> (j + 1 < Zceil (180 / iv))%Z) by (unfold N; lia). rewrite E, below_ceil.
    split; intros H.
    - apply (Rmult_lt_compat_r iv) in H; [|exact Hiv]. replace (180 / iv * iv) with 180 in H by (field; lra). lra.
    - apply (Rmult_lt_reg_r iv); [exact Hiv|]. replace (180 / iv * iv) with 180 by (field; lra). lra. }
  set (S := fun j q : Z => exists m, (0 <= m < 2000)%Z /\ spot (sr e (s (gr ((-90 + IZR (j + 1) * iv) * (PI / 180))))) (turn_step m) = Some q).
  destruct (for_loop_paint (fun n : ar_num => a_lt ar_num n (a_of_Z ar_num 90)) (fun n => a_add ar_num n (Num iv : ar_num))
     lat_body v N (samples * lines) S ltac:(unfold N; lia)) with (fuel := Datatypes.S (Z.to_nat N)) (g := g) as (g' & E & P).
  - intros j Hj. unfold v. cbn [a_lt ar_num num_lt a_of_Z]. apply Rlt_bool_Z. rewrite Z.ltb_lt. apply HT. exact Hj.
  - intros j Hj. unfold v. nums. f_equal. rewrite !plus_IZR. ring.
  - intros j q. unfold S. exact (bounded_dec (fun m => spot _ (turn_step m) = Some q) (fun m => opt_dec _ _) (Z.to_nat 2000)).
  - intros j g0 Hj Hg0. unfold v, S. apply lat_body_spec; [|exact Hg0]. destruct Hj as [H0 H1]. apply HT in H1; [|exact H0].
    assert (0 < IZR (j + 1)) by (apply (IZR_lt 0); lia). split; nra.
  - lia.
  - exact Hg.
  - exists g', (Datatypes.S (Z.to_nat N)). split.
    + intros fuel Hf. apply (for_loop_more _ _ _ _ _ Hf).
      replace (a_add ar_num (a_of_Z ar_num (-90)) (Num iv)) with (v 0%Z); [exact E|]. unfold v. nums. f_equal. simpl. ring.
    + eapply painted_ext; [exact P|]. intros q _. unfold S. split.
      * intros (j & Hj & m & Hm & H). exists (-90 + IZR (j + 1) * iv), m. split; [|tauto].
        exists (j + 1)%Z. split; [lia|]. split; [reflexivity|apply HT; lia].
      * intros (n & m & (j & Hj & -> & H90) & Hm & H). exists (j - 1)%Z. replace (j - 1 + 1)%Z with j by lia.
        split; [split; [lia|apply HT; [lia|replace (j - 1 + 1)%Z with j by lia; exact H90]]|]. exists m. tauto.
Qed.

Lemma plon_loop g : Z.of_nat (length g) = (samples * lines)%Z ->
  exists g' n0, (forall fuel, (n0 <= fuel)%nat ->
    for_loop fuel (fun m : ar_num => a_lt ar_num (a_of_Z ar_num 0) m) (fun m => a_sub ar_num m (Num jv : ar_num)) lon_body
      (a_of_Z ar_num 360) g = Some (Ok g')) /\
    painted g g' (fun q => exists m n, grid_longitude jv m /\ (0 <= n < 2000)%Z /\ okstep n = true /\ spot (sr e (s (turn_step n))) (m * (PI / 180)) = Some q).
Proof.
  intros Hg. set (N := Zceil (360 / jv)). set (v := fun j : Z => (Num (360 - IZR j * jv) : ar_num)).
  assert (HN : (0 <= N)%Z).
  { assert (0 < N)%Z; [|lia]. apply below_ceil. apply Rdiv_lt_0_compat; lra. }
  assert (HT : forall j, (j < N)%Z <-> 0 < 360 - IZR j * jv).
  { intros j. unfold N. rewrite below_ceil. split; intros H.
    - apply (Rmult_lt_compat_r jv) in H; [|exact Hjv]. replace (360 / jv * jv) with 360 in H by (field; lra). lra.
    - apply (Rmult_lt_reg_r jv); [exact Hjv|]. replace (360 / jv * jv) with 360 by (field; lra). lra. }
  set (S := fun j q : Z => exists n, (0 <= n < 2000)%Z /\ (okstep n = true /\ spot (sr e (s (turn_step n))) ((360 - IZR j * jv) * (PI / 180)) = Some q)).
  destruct (for_loop_paint (fun m : ar_num => a_lt ar_num (a_of_Z ar_num 0) m) (fun m => a_sub ar_num m (Num jv : ar_num))
     lon_body v N (samples * lines) S HN) with (fuel := Datatypes.S (Z.to_nat N)) (g := g) as (g' & E & P).
  - intros j Hj. unfold v. cbn [a_lt ar_num num_lt a_of_Z]. apply Rlt_bool_Z. rewrite Z.ltb_lt. apply HT.
  - intros j Hj. unfold v. nums. f_equal. rewrite !plus_IZR. ring.
  - intros j q. unfold S. exact (bounded_dec (fun n => okstep n = true /\ spot (sr e (s (turn_step n))) _ = Some q) (fun m => both_dec _ _ _) (Z.to_nat 2000)).
  - intros j g0 Hj Hg0. unfold v, S. apply lon_body_spec. exact Hg0.
  - lia.
  - exact Hg.
  - exists g', (Datatypes.S (Z.to_nat N)). split.
    + intros fuel Hf. apply (for_loop_more _ _ _ _ _ Hf).
      assert (V0 : v 0%Z = a_of_Z ar_num 360) by (unfold v; nums; f_equal; simpl; ring). rewrite V0 in E. exact E.
    + eapply painted_ext; [exact P|]. intros q _. unfold S. split.
      * intros (j & Hj & n & Hn & H). exists (360 - IZR j * jv), n. split; [|tauto].
        exists j. split; [lia|]. split; [reflexivity|apply HT; lia].
      * intros (m & n & (j & Hj & -> & H0) & Hn & H). exists j.
        split; [split; [lia|apply HT; exact H0]|]. exists n. tauto.
Qed.

(** Running over the whole circle of latitudes draws both opposite meridians. *)
Lemma spot_over r m : spot (- r) m = spot r (m + PI).
Proof. unfold spot. rewrite neg_sin, neg_cos. replace (- r * sin m) with (r * - sin m) by ring. replace (- r * cos m) with (r * - cos m) by ring. reflexivity. Qed.

Lemma whole_circle m q :
  (exists n, (0 <= n < 2000)%Z /\ okstep n = true /\ spot (sr e (s (turn_step n))) (m * (PI / 180)) = Some q) <->
  exists n lon, polar_step north n /\ (lon = m \/ lon = m + 180) /\ spot (sr e (s (radians n))) (radians lon) = Some q.
Proof.
  assert (Tr : forall x, sr e (s (x + 2 * PI)) = sr e (s x)).
  { intros x. destruct north; [apply sr_turn|]. rewrite <- (sr_turn e (- (x + 2 * PI))). f_equal. ring. }
  assert (Ov : forall x, sr e (s (PI - x)) = - sr e (s x)).
  { intros x. destruct north; [apply sr_over|]. rewrite <- (sr_over e (- x)), <- (sr_turn e (- (PI - x))). f_equal. ring. }
  assert (Rt : radians (m + 180) = m * (PI / 180) + PI) by (unfold radians; field).
  split.
  - intros (n & Hn & K & H). unfold okstep in K. apply negb_true_iff, Z.eqb_neq in K.
    assert (Cases : (n <= 500)%Z /\ (north = false -> n <> 500%Z) \/ (500 <= n <= 1500)%Z /\ (north = true -> n <> 1500%Z) /\ (north = false -> n <> 500%Z) \/ (1500 < n)%Z).
    { destruct north; destruct (Z_le_dec n 500), (Z_le_dec n 1500); lia. }
    destruct Cases as [[C C']|[[C C']|C]].
    + exists (IZR n * 360 / 2000), m. split.
      * destruct Hn as [Hn _]. assert (IZR n <> 500 \/ north = true).
        { destruct north; [auto|]. left. intros E. apply C'; [reflexivity|]. apply eq_IZR. exact E. }
        apply IZR_le in Hn, C. split; [exists n; reflexivity|]. split; [lra|]. destruct north; [lra|]. destruct H0; [lra|discriminate].
      * split; [auto|]. rewrite <- H. f_equal. unfold radians, turn_step. f_equal. destruct north; field.
    + exists (IZR (1000 - n) * 360 / 2000), (m + 180). split.
      * destruct C' as [C1 C2]. assert (IZR n <> if north then 1500 else 500).
        { destruct north; intros E; apply eq_IZR in E; [apply C1|apply C2]; auto. }
        destruct C as [Ca Cb]. apply IZR_le in Ca, Cb. split; [exists (1000 - n)%Z; reflexivity|]. rewrite minus_IZR.
        split; [lra|]. destruct north; lra.
      * split; [auto|]. rewrite Rt, <- spot_over, <- H. f_equal. rewrite <- Ov. f_equal. unfold radians, turn_step. rewrite minus_IZR.
        destruct north; field.
    + exists (IZR (n - 2000) * 360 / 2000), m. split.
      * destruct Hn as [_ Hn]. apply IZR_lt in Hn, C. split; [exists (n - 2000)%Z; reflexivity|]. rewrite minus_IZR.
        split; [lra|]. destruct north; lra.
      * split; [auto|]. rewrite <- H. f_equal. rewrite <- Tr. f_equal. unfold radians, turn_step. rewrite minus_IZR. destruct north; field.
  - intros (n & lon & ((z & ->) & Hz & Nz) & Hlon & H).
    assert (Z1 : (-500 <= z <= 500)%Z) by (split; apply le_IZR; lra).
    assert (Z2 : (z <> if north then -500 else 500)%Z) by (destruct north; intros ->; apply Nz; lra).
    destruct Hlon as [->| ->].
    + destruct (Z_le_dec 0 z) as [P|P].
      * exists z. split; [lia|]. split; [unfold okstep; apply negb_true_iff, Z.eqb_neq; destruct north; lia|].
        rewrite <- H. f_equal. f_equal. unfold radians, turn_step. destruct north; field.
      * exists (z + 2000)%Z. split; [lia|]. split; [unfold okstep; apply negb_true_iff, Z.eqb_neq; destruct north; lia|].
        rewrite <- H. f_equal. rewrite <- (Tr (radians (IZR z * 360 / 2000))). f_equal. unfold radians, turn_step. rewrite plus_IZR. destruct north; field.
    + exists (1000 - z)%Z. split; [lia|]. split; [unfold okstep; apply negb_true_iff, Z.eqb_neq; destruct north; lia|].
      rewrite <- H, Rt, <- spot_over. f_equal. rewrite <- Ov. f_equal. unfold radians, turn_step. rewrite minus_IZR. destruct north; field.
Qed.

Lemma polar_grid_content :
  exists g n0 edge, (forall fuel, (n0 <= fuel)%nat ->
    make_grid samples lines (polar_plot_grid L (Num eq : ar_num) (Num e : ar_num) (num_graphic eq pol) p
      fuel samples lines (Num iv : ar_num) (Num jv : ar_num)) = Some (Ok g)) /\
    black_or_white (samples * lines) g /\
    0 < edge /\ edge * IZR (Z.min (samples - 1) (lines - 1)) = 2 * sr e (s (gr (radians d))) /\
    forall k i, (0 <= k < lines)%Z -> (0 <= i < samples)%Z ->
      (white_at samples g k i <->
       (exists n m, grid_latitude iv n /\ step 0 360 2000 m /\ polar_spot e edge north samples lines (gr (radians n)) m k i) \/
       (exists n m lon, grid_longitude jv m /\ polar_step north n /\ (lon = m \/ lon = m + 180) /\
          polar_spot e edge north samples lines (radians n) lon k i)).
Proof.
  pose proof (blank_bw samples lines Hmap) as [Bl Bv]. set (g0 := repeat 0%Z (Z.to_nat (wrap (samples * lines)))) in *.
  destruct (plat_loop g0 Bl) as (g1 & n1 & E1 & P1).
  assert (L1 : Z.of_nat (length g1) = (samples * lines)%Z) by (destruct P1 as [-> _]; exact Bl).
  destruct (plon_loop g1 L1) as (g2 & n2 & E2 & P2).
  exists g2, (Nat.max n1 n2), pg_edge.
  assert (Run : forall fuel, (Nat.max n1 n2 <= fuel)%nat ->
    make_grid samples lines (polar_plot_grid L (Num eq : ar_num) (Num e : ar_num) (num_graphic eq pol) p
      fuel samples lines (Num iv : ar_num) (Num jv : ar_num)) = Some (Ok g2)).
  { intros fuel Hf. unfold make_grid, polar_plot_grid. fold g0. cbv zeta. cbn [ps_max_lat]. rewrite pix_num.
    cbv zeta in E1, E2. rewrite E1 by lia. cbn [then_loop]. apply E2. lia. }
  split; [exact Run|]. split.
  { destruct (Hmap) as (M1 & M2 & M3).
    assert (Sf := polar_safe L samples lines Hmap (num_gridded PI low lines ltac:(change size_mod with (2 ^ 64)%Z; lia))
      (num_gridded PI low samples ltac:(change size_mod with (2 ^ 64)%Z; lia))
      (Num eq : ar_num) (Num e : ar_num) (num_graphic eq pol) p (Nat.max n1 n2) (Num iv : ar_num) (Num jv : ar_num)).
    rewrite Run in Sf by lia. exact Sf. }
  split; [exact edge_pos|]. split.
  { unfold pg_edge, radians. field. apply not_0_IZR. lia. }
  intros k i Hk Hi. set (q := (k * samples + i)%Z).
  assert (Hq : (0 <= q < samples * lines)%Z) by (unfold q; nia).
  assert (Sp : forall lat lon, spot (sr e (s lat)) (radians lon) = Some q <-> polar_spot e pg_edge north samples lines lat lon k i).
  { intros lat lon. unfold spot, polar_spot. cbv zeta. unfold q. rewrite pcell_spec by assumption. tauto. }
  set (S1 := exists n m, grid_latitude iv n /\ (0 <= m < 2000)%Z /\ spot (sr e (s (gr (n * (PI / 180))))) (turn_step m) = Some q).
  set (S2' := exists m n, grid_longitude jv m /\ (0 <= n < 2000)%Z /\ okstep n = true /\ spot (sr e (s (turn_step n))) (m * (PI / 180)) = Some q).
  assert (A1 : S1 <-> exists n m, grid_latitude iv n /\ step 0 360 2000 m /\ polar_spot e pg_edge north samples lines (gr (radians n)) m k i).
  { unfold S1. split.
    - intros (n & m & Hn & Hm & H). exists n, (0 + IZR m * 360 / 2000). split; [exact Hn|]. split; [exists m; auto|].
      apply Sp. rewrite <- H. unfold radians, turn_step. f_equal. field.
    - intros (n & m & Hn & (z & Hz & ->) & H). exists n, z. split; [exact Hn|]. split; [exact Hz|].
      apply Sp in H. rewrite <- H. unfold radians, turn_step. f_equal. field. }
  assert (A2 : S2' <-> exists n m lon, grid_longitude jv m /\ polar_step north n /\ (lon = m \/ lon = m + 180) /\
          polar_spot e pg_edge north samples lines (radians n) lon k i).
  { unfold S2'. split.
    - intros (m & n & Hm & X). assert (Y := proj1 (whole_circle m q) (ex_intro _ n X)). destruct Y as (n' & lon & Hn & Hl & H).
      exists n', m, lon. split; [exact Hm|]. split; [exact Hn|]. split; [exact Hl|]. apply Sp. exact H.
    - intros (n & m & lon & Hm & Hn & Hl & H). apply Sp in H.
      destruct (proj2 (whole_circle m q)) as (n' & X); [exists n, lon; auto|]. exists m, n'. tauto. }
  rewrite <- A1, <- A2. unfold white_at. fold q.
  destruct P1 as [Pl1 P1]. destruct P2 as [Pl2 P2].
  specialize (P1 q ltac:(rewrite Bl; lia)). specialize (P2 q ltac:(rewrite L1; lia)).
  fold S1 in P1. fold S2' in P2. destruct P1 as [P1a P1b], P2 as [P2a P2b]. split.
  - intros W. assert (N0 : nth_error g0 (Z.to_nat q) <> Some 255%Z).
    { intros E. unfold g0 in E. apply nth_error_In, repeat_spec in E. discriminate. }
    destruct (Classical_Prop.classic S2') as [Y|Y]; [auto|]. left. rewrite P2b in W by exact Y.
    destruct (Classical_Prop.classic S1) as [X|X]; [exact X|]. rewrite P1b in W by exact X. contradiction.
  - intros [X|X]; [|auto]. destruct (Classical_Prop.classic S2') as [Y|Y]; [auto|]. rewrite P2b by exact Y. auto.
Qed.
End Grid.

(** The same for a constructed projection. *)
Lemma polar_grid_built low eq pol : 0 < pol -> pol <= eq -> forall north samples lines iv jv (x : num) p,
  map_size samples lines -> (2 <= samples)%Z -> (2 <= lines)%Z -> 0 < iv -> 0 < jv ->
  polar_new (libm_num PI low) (x : ar_num) north = Ok p ->
  exists d g n0 edge, (x = Num d \/ x = NaN /\ d = 0) /\ (forall fuel, (n0 <= fuel)%nat ->
    make_grid samples lines (polar_plot_grid (libm_num PI low) (Num eq : ar_num) (Num (first_eccentricity eq pol) : ar_num) (num_graphic eq pol) p
      fuel samples lines (Num iv : ar_num) (Num jv : ar_num)) = Some (Ok g)) /\
    black_or_white (samples * lines) g /\
    0 < edge /\ edge * IZR (Z.min (samples - 1) (lines - 1)) =
      2 * stereographic_radius (first_eccentricity eq pol) (if north then graphic_latitude eq pol (radians d) else - graphic_latitude eq pol (radians d)) /\
    forall k i, (0 <= k < lines)%Z -> (0 <= i < samples)%Z ->
      (white_at samples g k i <->
       (exists n m, grid_latitude iv n /\ step 0 360 2000 m /\
          polar_spot (first_eccentricity eq pol) edge north samples lines (graphic_latitude eq pol (radians n)) m k i) \/
       (exists n m lon, grid_longitude jv m /\ polar_step north n /\ (lon = m \/ lon = m + 180) /\
          polar_spot (first_eccentricity eq pol) edge north samples lines (radians n) lon k i)).
Proof.
  intros Hp Hep north samples lines iv jv x p Hm S2 L2 Hiv Hjv E.
  destruct (polar_new_spec low x north p E) as (d & Hd & Hx & ->).
  destruct (polar_grid_content low eq pol Hp Hep north samples lines Hm S2 L2 d Hd iv jv Hiv Hjv) as (g & n0 & edge & H).
  exists d, g, n0, edge. split; [exact Hx|exact H].
Qed.

Lemma no_latitude iv n : 180 < iv -> ~ grid_latitude iv n.
Proof. intros H (j & Hj & -> & Hn). apply IZR_le in Hj. nra. Qed.

Lemma only_360 jv m : 360 <= jv -> grid_longitude jv m -> m = 360.
Proof.
  intros H (j & Hj & -> & Hn). destruct (Z.eq_dec j 0) as [->|N]; [lra|].
  assert (1 <= j)%Z by lia. apply IZR_le in H0. nra.
Qed.

(** One grid longitude only (that of the prime meridian), no latitude line: a cell
    on the opposite meridian is white. *)
Lemma opposite_white low eq pol : 0 < pol -> pol <= eq -> forall size iv jv p, (3 <= size < 2 ^ 31)%Z -> 180 < iv -> 360 <= jv ->
  polar_new (libm_num PI low) (NaN : ar_num) true = Ok p ->
  exists g n0 edge k i, (forall fuel, (n0 <= fuel)%nat ->
    make_grid size size (polar_plot_grid (libm_num PI low) (Num eq : ar_num) (Num (first_eccentricity eq pol) : ar_num) (num_graphic eq pol) p
      fuel size size (Num iv : ar_num) (Num jv : ar_num)) = Some (Ok g)) /\
    0 < edge /\ edge * IZR (size - 1) = 2 /\
    (0 <= k < size)%Z /\ (0 <= i < size)%Z /\ white_at size g k i /\
    (~ exists n, grid_latitude iv n) /\
    ~ exists latg m, grid_longitude jv m /\ - (PI / 2) < latg <= PI / 2 /\ polar_spot (first_eccentricity eq pol) edge true size size latg m k i.
Proof.
  intros Hp Hep n iv jv p Hn Hiv Hjv E.
  destruct (polar_grid_built low eq pol Hp Hep true n n iv jv NaN p) as (d & g & n0 & edge & Hx & R & B & Pe & Ee & W);
    [unfold map_size; nia|lia|lia|lra|lra|exact E|].
  destruct Hx as [Hx|[_ ->]]; [discriminate|].
  assert (G0 : graphic_latitude eq pol (radians 0) = 0).
  { unfold graphic_latitude, atan_ktan, radians. rewrite Rmult_0_l, cos_0, tan_0, Rmult_0_r. rewrite Req_bool_false by lra. apply atan_0. }
  cbv iota in Ee. rewrite G0 in Ee.
  assert (R0 : stereographic_radius (first_eccentricity eq pol) 0 = 1).
  { unfold stereographic_radius. rewrite sin_0, Rmult_0_r. replace (PI / 4 - 0 / 2) with (PI / 4) by field. rewrite tan_PI4.
    replace ((1 + 0) / (1 - 0)) with 1 by field. unfold Rpower. rewrite ln_1, Rmult_0_r, exp_0. ring. }
  rewrite R0, Z.min_id, Rmult_1_r in Ee.
  assert (Hn3 : 3 <= IZR n) by (apply IZR_le; lia).
  exists g, n0, edge, 1%Z, (ZnearestA (IZR n / 2)). split; [exact R|]. split; [exact Pe|]. split; [exact Ee|].
  rewrite minus_IZR in Ee.
  assert (Z1 : ZnearestA (1 / 2) = 1%Z).
  { apply (proj1 (nearest_spec (1 / 2) 1)). unfold nearest. split; [lia|]. lra. }
  assert (Zn : (0 <= ZnearestA (IZR n / 2) < n)%Z /\ nearest (IZR n / 2) (ZnearestA (IZR n / 2))).
  { pose proof (Znearest_half (Zle_bool 0) (IZR n / 2)) as Hh. apply Rabs_le_inv in Hh.
    assert (A : (0 <= ZnearestA (IZR n / 2))%Z). { assert (-1 < ZnearestA (IZR n / 2))%Z; [|lia]. apply lt_IZR. lra. }
    assert (C : (ZnearestA (IZR n / 2) < n)%Z). { apply lt_IZR. lra. }
    split; [lia|]. apply nearest_spec. auto. }
  destruct Zn as [Zn1 Zn2].
  split; [lia|]. split; [exact Zn1|]. split; [|split].
  - apply W; [lia|exact Zn1|]. right. exists 0, 360, (360 + 180).
    split; [exists 0%Z; split; [lia|]; lra|]. split; [split; [exists 0%Z; lra|split; lra]|]. split; [auto|].
    unfold polar_spot. cbv zeta iota. replace (radians 0) with 0 by (unfold radians; ring). rewrite R0.
    replace (radians (360 + 180)) with (PI + 2 * INR 1 * PI) by (unfold radians; simpl; field). rewrite sin_period, cos_period, sin_PI, cos_PI.
    replace (1 * 0 / edge + IZR n / 2) with (IZR n / 2) by (field; lra).
    assert (X : 1 * -1 / edge + IZR n / 2 = 1 / 2).
    { apply (Rmult_eq_reg_r edge); [|lra]. replace ((1 * -1 / edge + IZR n / 2) * edge) with (-1 + edge * (IZR n - 1) / 2 + edge / 2) by (field; lra).
      rewrite Ee. field. }
    rewrite X. split; [exact Zn2|]. apply nearest_spec. split; [exact Z1|lia].
  - intros (m & H). exact (no_latitude _ _ Hiv H).
  - intros (latg & m & Hm & Hl & _ & (_ & H & _)). apply (only_360 _ _ Hjv) in Hm. subst m. cbv iota in H.
    replace (radians 360) with (0 + 2 * INR 1 * PI) in H by (unfold radians; simpl; field). rewrite cos_period, cos_0 in H.
    assert (0 <= stereographic_radius (first_eccentricity eq pol) latg).
    { pose proof (ecc_range eq pol Hp Hep) as He. destruct (Req_dec latg (PI / 2)) as [->|N]; [rewrite sr_pole; lra|].
      apply Rlt_le, sr_pos; [exact He|lra]. }
    assert (0 <= stereographic_radius (first_eccentricity eq pol) latg * 1 / edge) by (apply Rmult_le_pos; [lra|left; apply Rinv_0_lt_compat; lra]).
    lra.
Qed.
