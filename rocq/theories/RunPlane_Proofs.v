(** Proofs for C101 to C104. *)
From Coq Require Import List ZArith Reals Bool String Lra Lia Psatz Sorting.Sorted.
From Flocq Require Import Core BinarySingleNaN.
From Verif Require Import Base BaseFacts Flt FltFacts Num Maths_Model Spheroid_Model Extrema_Model Extrema_Spec MakeMap_Model MakeMap_Spec MakeMap_Proofs
  Proj_Model Proj_Spec Proj_Proofs Virtual_Model Virtual_Spec Virtual_Proofs VirtualPlane_Proofs Params_Model
  Fits_Model Fits_Spec Command_Model Command_Spec Command_Proofs Input_Model Entry_Model Parse_Model Parse_Spec Parse_Proofs
  Run_Model Run_Spec RunAngle_Proofs RunScale_Proofs Run_Proofs.
Import ListNotations.
Open Scope R_scope.

#[local] Existing Instance prec53.
#[local] Existing Instance emax53.

(** ** C101 *)
Lemma make_computed X f t p physical : computes X (if_source f) p physical -> if_limits f = ex_empty ->
  make_of X f t = computed X t p physical ex_empty.
Proof. intros C E. unfold make_of. rewrite E. destruct C; reflexivity. Qed.

Lemma one_point {P} (calls : list (P * Z)) q q' c : in_order calls -> In (q, c) calls -> In (q', c) calls -> q = q'.
Proof.
  intros I H H'. unfold in_order in I. induction calls as [|[a n] l IH]; [destruct H|].
  cbn [map snd] in I. inversion I as [|? ? I' F]; subst. rewrite Forall_forall in F.
  destruct H as [H|H], H' as [H'|H'].
  - congruence.
  - injection H as -> ->. specialize (F c (in_map snd _ _ H')). lia.
  - injection H' as -> ->. specialize (F c (in_map snd _ _ H)). lia.
  - exact (IH I' H H').
Qed.

Lemma longitude_bytes L : make_virtual L U8 longitude_plane ex_empty = Throw range_error.
Proof.
  unfold make_virtual, scale_and_offset. cbn [int_limits].
  assert (W : too_wide 255 (double_of_Z 0) (double_of_Z 360) = true) by (vm_compute; reflexivity).
  unfold scale_int. unfold too_wide in W. cbn [plane_low plane_high]. now rewrite W.
Qed.

Lemma bitpix_sign b t : type_of_bitpix b = Some t -> (b <? 0)%Z = negb (integral_type t).
Proof.
  unfold type_of_bitpix.
  repeat (match goal with |- context [(b =? ?z)%Z] => destruct (Z.eqb_spec b z) as [->|]; [intros [= <-]; reflexivity|] end). discriminate.
Qed.

Lemma finite_card n (x : double) : is_finite x = true -> double_card n x = [key_double n x].
Proof. intros F. unfold double_card. now rewrite (finite_not_nan _ F). Qed.

Theorem computed_cells X fuel status left_over removable m c w w' r j f p physical :
  (forall n, status n = 0%Z) -> ready_command m -> fits_size m -> accurate (x_scale X) ->
  command_of X fuel m = Some c -> execute status left_over removable c w = (w', Ok r) ->
  nth_error (mc_images m) j = Some f -> if_limits f = ex_empty -> computes X (if_source f) p physical ->
  exists params t axes cards d rest o,
    populate_map_parameters (map (parameters_of X) (mc_images m)) (mc_params m) = Ok params /\
    type_of_bitpix (p_bitpix params) = Some t /\
    w_file w' = new_file (Hdu t axes cards d :: rest) /\
    calls_of X (mc_projection m) (mc_samples m) (mc_lines m) = (c_calls c, Ok o) /\
    forall k i, (0 <= k < mc_lines m)%Z -> (0 <= i < mc_samples m)%Z ->
    exists v, d (element m (Z.of_nat j) k i) = Some (existT _ t v) /\
      (forall q, plotted (mc_samples m) (c_calls c) k i q ->
       (forall x, physical (fst q) (snd q) = Ok (Some x) -> is_finite x = true -> plane_range p (B2R x) ->
        exists y, stands_for t cards (Z.of_nat (List.length (mc_images m))) (Z.of_nat j + 1) v y /\ Rabs (y - B2R x) <= tolerance t p) /\
       (physical (fst q) (snd q) = Ok None -> blank_of t (p_blank params) = Some v)) /\
      ((forall q, ~ plotted (mc_samples m) (c_calls c) k i q) -> blank_of t (p_blank params) = Some v).
Proof.
  intros Hs R Fs A C E J Hl Hp.
  destruct (elements X fuel status left_over removable m c w w' r Hs R Fs C E)
    as (params & t & axes & cards & d & rest & o & Pp & Pt & Pf & Pc & El).
  exists params, t, axes, cards, d, rest, o. repeat (split; [assumption|]).
  destruct (El j f J) as (image & ex & before & after & Mk & Hc & Cells). clear El.
  rewrite (make_computed X f t p physical Hp Hl) in Mk. unfold computed in Mk.
  assert (N : ~ (t = U8 /\ p = longitude_plane)).
  { intros [-> ->]. rewrite longitude_bytes in Mk. discriminate. }
  destruct (made_plane (x_scale X) t p A N) as (s & z & ex' & sv & ov & MV & M). rewrite MV in Mk. cbn [bind] in Mk.
  apply Ok_inj in Mk. injection Mk as <- <-.
  destruct (Cells _ _ (made_limits _ _ _ _ _ _ _ M)) as (blank & Bl & Cell). clear Cells.
  assert (Sz : map_size (mc_samples m) (mc_lines m)).
  { destruct Fs as (S1 & S2 & S3 & S4). assert (1 <= Z.of_nat (List.length (mc_images m)))%Z by (destruct (mc_images m); [destruct j; discriminate|cbn; lia]).
    assert (mc_samples m * mc_lines m < 2 ^ 63 - 1)%Z by nia. unfold map_size. nia. }
  destruct (calls_spec X _ _ _ _ _ Sz Pc) as [IO _].
  intros k i Hk Hi. destruct (Cell k i Hk Hi) as (v & Ev & Sh). exists v. split; [exact Ev|]. cbn [si_read] in Sh.
  split; [|intros No; destruct Sh as [(q & x' & Q & _)|(-> & _)]; [destruct (No q Q)|exact Bl]].
  intros q Q. destruct Sh as [(q' & x' & Q' & Rd & W & (xr & Dv & Hv))|(-> & Sh)].
  - assert (q' = q) as -> by (eapply one_point; [exact IO|exact Q'|exact Q]).
    split.
    + intros x Hx Fx Rx. unfold read_virtual in Rd. rewrite Hx in Rd. cbn [bind] in Rd. apply Ok_inj in Rd. injection Rd as Rd.
      cbn [a_add a_mul ar_double] in Rd. destruct (made_datum _ _ _ _ _ _ _ x M Fx Rx) as (Fd & _ & _).
      rewrite Rd in Fd. unfold dval in Dv. rewrite (finite_not_nan _ Fd), (fval_finite _ Fd) in Dv. injection Dv as <-.
      pose proof (made_number _ _ _ _ _ _ _ x M Fx Rx) as Nm. cbv zeta in Nm. rewrite Rd in Nm.
      destruct (made_scale _ _ _ _ _ _ _ M) as (Fsc & Fz & _).
      destruct (integral_type t) eqn:I.
      * eexists. split; [|exact Nm]. exists (converted t (B2R x')). split; [exact Hv|].
        assert (G : exists scale zero, scaled_by cards (Z.of_nat (List.length (mc_images m))) (Z.of_nat j + 1) scale zero /\
           is_finite scale = true /\ is_finite zero = true /\
           B2R (virtual_scale (A := ar_double) s : double) * converted t (B2R x') + B2R (zero_card (virtual_offset (A := ar_double) s z)) =
           B2R scale * converted t (B2R x') + B2R zero).
        { do 2 eexists. split; [|split; [exact Fsc|split; [exact Fz|reflexivity]]].
          unfold scaling_cards in Hc. cbn [si_scaling] in Hc. rewrite (bitpix_sign _ _ Pt), I in Hc. cbn [negb] in Hc. fold (zero_card (virtual_offset (A := ar_double) s z)) in Hc.
          unfold scaled_by. rewrite Hc. destruct (Z.of_nat (List.length (mc_images m)) =? 1)%Z.
          - rewrite !finite_card by assumption.
            exists (before ++ string_card "BUNIT" (p_str params k_bunit))%list, after. rewrite <- !app_assoc. reflexivity.
          - exists (before ++ string_card "BUNIT" (p_str params k_bunit))%list, after. rewrite <- !app_assoc. reflexivity. }
        destruct t; try discriminate I; exact G.
      * exists (converted t (B2R x')). split; [|exact Nm]. exists (converted t (B2R x')). split; [exact Hv|].
        destruct t; try discriminate I; reflexivity.
    + intros Hx. unfold read_virtual in Rd. rewrite Hx in Rd. discriminate.
  - split; [|intros _; exact Bl].
    intros x Hx Fx Rx. exfalso. destruct (Sh q Q) as (ok & x' & Rd & Bad). unfold read_virtual in Rd. rewrite Hx in Rd. cbn [bind] in Rd.
    apply Ok_inj in Rd. injection Rd as <- Rd. destruct Bad as [Bad|Bad]; [discriminate|]. apply Bad.
    destruct (made_datum _ _ _ _ _ _ _ x M Fx Rx) as (Fd & Bd & _). cbn [a_add a_mul ar_double] in Rd. rewrite Rd in Fd, Bd.
    unfold within, dval. rewrite (finite_not_nan _ Fd), (fval_finite _ Fd). eauto.
Qed.

Theorem computed_plane X fuel status left_over removable m c w w' r j f p physical :
  (forall n, status n = 0%Z) -> ready_command m -> fits_size m -> accurate (x_scale X) ->
  command_of X fuel m = Some c -> execute status left_over removable c w = (w', Ok r) ->
  nth_error (mc_images m) j = Some f -> if_limits f = ex_empty -> computes X (if_source f) p physical ->
  exists params t axes cards d rest o,
    populate_map_parameters (map (parameters_of X) (mc_images m)) (mc_params m) = Ok params /\
    type_of_bitpix (p_bitpix params) = Some t /\
    w_file w' = new_file (Hdu t axes cards d :: rest) /\
    calls_of X (mc_projection m) (mc_samples m) (mc_lines m) = (c_calls c, Ok o) /\
    forall k i q, (0 <= k < mc_lines m)%Z -> (0 <= i < mc_samples m)%Z -> plotted (mc_samples m) (c_calls c) k i q ->
    exists v, d (element m (Z.of_nat j) k i) = Some (existT _ t v) /\
      (forall x, physical (fst q) (snd q) = Ok (Some x) -> is_finite x = true -> plane_range p (B2R x) ->
       exists y, stands_for t cards (Z.of_nat (List.length (mc_images m))) (Z.of_nat j + 1) v y /\ Rabs (y - B2R x) <= tolerance t p) /\
      (physical (fst q) (snd q) = Ok None -> blank_of t (p_blank params) = Some v).
Proof.
  intros Hs R Fs A C E J Hl Hp.
  destruct (computed_cells X fuel status left_over removable m c w w' r j f p physical Hs R Fs A C E J Hl Hp)
    as (params & t & axes & cards & d & rest & o & Pp & Pt & Pf & Pc & Cell).
  exists params, t, axes, cards, d, rest, o. repeat (split; [assumption|]).
  intros k i q Hk Hi Q. destruct (Cell k i Hk Hi) as (v & Ev & Sh & _). exists v. split; [exact Ev|exact (Sh q Q)].
Qed.

(** ** C102 and C103 *)
Lemma sc_point (A : arith) (pro : bool) (centric : A -> A) (p : simple_cyl A) samples lines calls o : map_size samples lines ->
  sc_plot_map pro centric p samples lines = (calls, Ok o) ->
  forall k i, (0 <= k < lines)%Z -> (0 <= i < samples)%Z -> plotted samples calls k i
    (let lat := a_add A (a_mul A (a_add A (a_of_Z A k) half) (a_div A (a_sub A (sc_hi_lat p) (sc_lo_lat p)) (a_of_Z A lines))) (sc_lo_lat p) in
     if sc_graphic p then centric lat else lat,
     sc_longitude pro p i (a_div A (a_sub A (sc_hi_lon p) (sc_lo_lon p)) (a_of_Z A samples))).
Proof.
  intros Sz E k i Hk Hi. unfold sc_plot_map in E.
  match type of E with plot_loops _ _ ?r = _ => set (row := r) in E end.
  destruct (loops_spec samples lines row calls (Ok o) Sz E) as (_ & _ & _ & D).
  destruct (D o eq_refl k i Hk Hi) as (f & c & Rk & Fi & Hc). apply Hc.
  apply Ok_inj in Rk. subst f. apply Ok_inj in Fi. subst c. reflexivity.
Qed.

Lemma validated_bounds (x : double) n : (0 <= n <= 1000)%Z ->
  is_nan x || flt x (double_of_Z (- n)) || flt (double_of_Z n) x = false -> is_finite x = true /\ Rabs (B2R x) <= IZR n.
Proof.
  intros N H. apply orb_false_elim in H. destruct H as [H H2]. apply orb_false_elim in H. destruct H as [H0 H1].
  destruct (double_of_Z_exact (- n) ltac:(lia)) as [F1 V1]. destruct (double_of_Z_exact n ltac:(lia)) as [F2 V2].
  assert (F : is_finite x = true).
  { destruct x as [?|[]| |? ? ? ?]; try reflexivity; try discriminate H0.
    - destruct (double_of_Z (- n)); try discriminate F1; discriminate H1.
    - destruct (double_of_Z n); try discriminate F2; discriminate H2. }
  split; [exact F|]. rewrite flt_finite in H1, H2 by assumption. rewrite V1 in H1. rewrite V2 in H2. rewrite opp_IZR in H1.
  apply lt_false in H1, H2. apply Rabs_le. lra.
Qed.

Lemma simple_cyl_validated L graphic (lo hi lo' hi' : double) q : simple_cyl_new (A := ar_double) L graphic lo hi lo' hi' false = Ok q ->
  (is_finite lo = true /\ Rabs (B2R lo) <= 90) /\ (is_finite hi = true /\ Rabs (B2R hi) <= 90) /\
  (is_finite lo' = true /\ Rabs (B2R lo') <= 360) /\ (is_finite hi' = true /\ Rabs (B2R hi') <= 360).
Proof.
  unfold simple_cyl_new, boundary_latitude, validate_latitude, validate_longitude. cbn [a_isnan a_lt a_of_Z ar_double].
  intros H.
  destruct (is_nan lo || _ || _) eqn:E1; [discriminate|]. cbn [bind] in H.
  destruct (is_nan hi || _ || _) eqn:E2; [discriminate|]. cbn [bind] in H.
  destruct (is_nan lo' || _ || _) eqn:E3; [discriminate|]. cbn [bind] in H.
  destruct (is_nan hi' || _ || _) eqn:E4; [discriminate|].
  split; [|split; [|split]]; eapply validated_bounds; try eassumption; lia.
Qed.

Lemma command_size m j (f : image_factory) : fits_size m -> nth_error (mc_images m) j = Some f ->
  map_size (mc_samples m) (mc_lines m) /\ (mc_samples m < 2 ^ 63)%Z.
Proof.
  intros (S1 & S2 & S3 & S4) J.
  assert (1 <= Z.of_nat (List.length (mc_images m)))%Z by (destruct (mc_images m); [destruct j; discriminate|cbn; lia]).
  assert (mc_samples m * mc_lines m < 2 ^ 63 - 1)%Z by nia. unfold map_size. nia.
Qed.

Theorem latitudes X fuel status left_over removable m c w w' r j f b lo hi lo' hi' b' :
  ieee X -> (forall n, status n = 0%Z) -> ready_command m -> fits_size m -> accurate (x_scale X) ->
  command_of X fuel m = Some c -> execute status left_over removable c w = (w', Ok r) ->
  mc_projection m = SimpleCylindrical b lo hi lo' hi' false -> IZR (mc_lines m) * 1e-9 <= Rabs (B2R hi - B2R lo) ->
  nth_error (mc_images m) j = Some f -> if_limits f = ex_empty -> if_source f = F_latitude b' false ->
  exists params t axes cards d rest,
    populate_map_parameters (map (parameters_of X) (mc_images m)) (mc_params m) = Ok params /\
    type_of_bitpix (p_bitpix params) = Some t /\
    w_file w' = new_file (Hdu t axes cards d :: rest) /\
    forall k i, (0 <= k < mc_lines m)%Z -> (0 <= i < mc_samples m)%Z ->
    exists v y, d (element m (Z.of_nat j) k i) = Some (existT _ t v) /\
      stands_for t cards (Z.of_nat (List.length (mc_images m))) (Z.of_nat j + 1) v y /\
      Rabs (y - middle_latitude (B2R lo) (B2R hi) k (mc_lines m)) <= tolerance t latitude_plane + 1e-12.
Proof.
  intros I Hs R Fs A C E P Tall J Hl Hf.
  assert (Cm : computes X (if_source f) latitude_plane (latitude_data (A := ar_double) (x_libm X) (x_graphic X b') false)).
  { rewrite Hf. constructor. }
  destruct (computed_plane X fuel status left_over removable m c w w' r j f _ _ Hs R Fs A C E J Hl Cm)
    as (params & t & axes & cards & d & rest & o & Pp & Pt & Pf & Pc & Cell).
  exists params, t, axes, cards, d, rest. repeat (split; [assumption|]). intros k i Hk Hi.
  rewrite P in Pc. cbn [calls_of] in Pc.
  destruct (simple_cyl_new _ _ _ _ _ _ _) as [q| |] eqn:Q; try discriminate.
  destruct (simple_cyl_validated _ _ _ _ _ _ _ Q) as ((F1 & B1) & (F2 & B2) & _).
  destruct (command_size m j f Fs J) as [Sz _].
  pose proof (sc_point ar_double _ _ _ _ _ _ _ Sz Pc k i Hk Hi) as Pl. cbv zeta in Pl.
  assert (QV : sc_graphic q = false /\ sc_lo_lat q = Bmult mode_NE lo d_degree /\ sc_hi_lat q = Bmult mode_NE hi d_degree).
  { unfold simple_cyl_new, boundary_latitude, validate_latitude, validate_longitude in Q. rewrite (i_degree X I) in Q.
    repeat (destruct (_ || _) in Q; [discriminate|]; cbn [bind] in Q).
    repeat match type of Q with context [if ?b then _ else _] => destruct b end; try discriminate; cbn [bind] in Q;
      apply Ok_inj in Q; subst q; auto. }
  destruct QV as (G & V1 & V2). rewrite G, V1, V2 in Pl.
  destruct (Cell k i _ Hk Hi Pl) as (v & Ev & St & _).
  destruct (latitude_read lo hi k (mc_lines m) F1 F2 B1 B2 Hk Tall (x_libm X) (x_graphic X b')
    (sc_longitude (A := ar_double) (prograde b) q i (a_div ar_double (a_sub ar_double (sc_hi_lon q) (sc_lo_lon q)) (a_of_Z ar_double (mc_samples m))))
    (i_pi2 X I) (i_degree X I)) as (x & Ex & Fx & Bx & Nx).
  destruct (St x Ex Fx Bx) as (y & Sy & Ny). exists v, y. split; [exact Ev|]. split; [exact Sy|].
  unfold middle_latitude. apply Rabs_le_inv in Ny. apply Rabs_le_inv in Nx. apply Rabs_le. lra.
Qed.

Theorem longitudes X fuel status left_over removable m c w w' r j f b lo hi lo' hi' :
  ieee X -> (forall n, status n = 0%Z) -> ready_command m -> fits_size m -> accurate (x_scale X) ->
  command_of X fuel m = Some c -> execute status left_over removable c w = (w', Ok r) ->
  mc_projection m = SimpleCylindrical b lo hi lo' hi' false ->
  (B2R lo' = B2R hi' \/ 1e-9 <= Rabs (B2R hi' - B2R lo')) -> (mc_samples m < 2 ^ 52)%Z ->
  nth_error (mc_images m) j = Some f -> if_limits f = ex_empty -> if_source f = F_longitude ->
  exists params t axes cards d rest,
    populate_map_parameters (map (parameters_of X) (mc_images m)) (mc_params m) = Ok params /\
    type_of_bitpix (p_bitpix params) = Some t /\
    w_file w' = new_file (Hdu t axes cards d :: rest) /\
    forall k i, (0 <= k < mc_lines m)%Z -> (0 <= i < mc_samples m)%Z ->
    exists v y z, d (element m (Z.of_nat j) k i) = Some (existT _ t v) /\
      stands_for t cards (Z.of_nat (List.length (mc_images m))) (Z.of_nat j + 1) v y /\
      - tolerance t longitude_plane <= y <= 360 + tolerance t longitude_plane /\
      Rabs (y - (middle_longitude (prograde b) (B2R lo') (B2R hi') i (mc_samples m) + 360 * IZR z)) <= tolerance t longitude_plane + 1e-11.
Proof.
  intros I Hs R Fs A C E P Apart Small J Hl Hf.
  assert (Cm : computes X (if_source f) longitude_plane (longitude_data (A := ar_double) (x_circle X) (l_degree (x_libm X)) (x_fmod X))).
  { rewrite Hf. constructor. }
  destruct (computed_plane X fuel status left_over removable m c w w' r j f _ _ Hs R Fs A C E J Hl Cm)
    as (params & t & axes & cards & d & rest & o & Pp & Pt & Pf & Pc & Cell).
  exists params, t, axes, cards, d, rest. repeat (split; [assumption|]). intros k i Hk Hi.
  rewrite P in Pc. cbn [calls_of] in Pc.
  destruct (simple_cyl_new _ _ _ _ _ _ _) as [q| |] eqn:Q; try discriminate.
  destruct (simple_cyl_validated _ _ _ _ _ _ _ Q) as (_ & _ & (F1 & B1) & (F2 & B2)).
  destruct (command_size m j f Fs J) as [Sz _].
  pose proof (sc_point ar_double _ _ _ _ _ _ _ Sz Pc k i Hk Hi) as Pl. cbv zeta in Pl.
  destruct (ends_computed lo' hi' F1 F2 B1 B2 Apart (x_libm X) _ _ _ _ (i_degree X I) (i_2pi X I) (i_eps X I) (i_tiny X I) Q) as (En & _).
  destruct (cell_longitude (prograde b) lo' hi' q i (mc_samples m) B1 B2 En Hi Small) as (Fl & Nl & Bl). cbv zeta in Fl, Nl.
  set (lon := sc_longitude _ _ _ _) in *. destruct (Cell k i _ Hk Hi Pl) as (v & Ev & St & _). cbn [fst snd] in St.
  destruct (longitude_value (x_fmod X) lon _ (i_fmod X I) Fl Nl Bl) as (x & Ex & Fx & Bx & z & Nx).
  rewrite (i_degree X I), (i_circle X I) in St.
  destruct (St x Ex Fx Bx) as (y & Sy & Ny). exists v, y, z. split; [exact Ev|]. split; [exact Sy|].
  apply Rabs_le_inv in Ny. apply Rabs_le_inv in Nx. split; [lra|]. apply Rabs_le. lra.
Qed.

(** ** Commands of the parser *)
Section Parsed.
Context (fmod : double -> double -> double) (degree : double) (centric : body -> double -> double) (au : double).
Context (construct : projection -> option exn) (opens : string -> option exn) (refuses : body -> list vcall -> vcall -> option exn).
Local Notation source_of := (Parse_Spec.source_of fmod degree centric au opens refuses).
Local Notation image_of := (Parse_Spec.image_of fmod degree centric au opens refuses).

Lemma image_ready d b i p : image_of d b i = Some p -> ready_photo p.
Proof.
  unfold Parse_Spec.image_of. intros H.
  repeat match type of H with obind ?x _ = _ => destruct x; cbn [obind] in H; [|discriminate] end.
  destruct (_ && _) in H; [|discriminate]. injection H as <-. split; discriminate.
Qed.
Lemma images_ready d b l : forall r, all_some (image_of d b) l = Some r -> Forall ready_photo r.
Proof.
  induction l as [|i l IH]; cbn; intros r H.
  - injection H as <-. constructor.
  - destruct (image_of d b i) as [p|] eqn:E; cbn in H; [|discriminate].
    destruct (all_some _ l) as [ps|] eqn:E'; cbn in H; [|discriminate]. injection H as <-.
    constructor; [exact (image_ready _ _ _ _ E)|apply IH; reflexivity].
Qed.
Lemma source_ready d b avg t s : source_of d b avg t = Some s ->
  match s with F_photo p => ready_photo p | F_mosaic l _ => Forall ready_photo l | _ => True end.
Proof.
  intros H. destruct t as [i more|o r s'|o s'|o r s'|k|]; cbn [Parse_Spec.source_of] in H.
  2-6: repeat match type of H with obind ?x _ = _ => destruct x; cbn [obind] in H; [|discriminate] end; injection H as <-; exact I.
  destruct (all_some (image_of d b) (i :: more)) as [l|] eqn:E; cbn [obind] in H; [|discriminate]. apply images_ready in E.
  injection H as <-. destruct l as [|p [|p' l]]; auto. now inversion E.
Qed.
Lemma planes_ready d b avg np l : forall e gl r, ordered_planes fmod degree centric au opens refuses d b avg np e gl l = Some r ->
  Forall ready_image (fst r).
Proof.
  induction l as [|p l IH]; intros e gl r; cbn [ordered_planes].
  - intros [= <-]. constructor.
  - unfold ordered_plane. intros H.
    destruct (ordered_size np e (pe_number p)) as [e'|]; cbn [obind] in H; [|discriminate].
    destruct (range_of _ _) as [x|]; cbn [obind] in H; [|discriminate].
    destruct (ordered_source _ _ _ _ _ _ d b avg gl (pe_type p)) as [s|] eqn:Hs; cbn [obind] in H; [|discriminate].
    destruct (limits_of x) as [lm|]; cbn [obind] in H; [|discriminate]. cbn [fst snd] in H.
    match type of H with obind ?y _ = _ => destruct y as [s'|] eqn:Hl; cbn [obind] in H; [|discriminate] end.
    injection H as <-. cbn [fst]. constructor; [|exact (IH _ _ _ Hl)].
    unfold ready_image. cbn [if_source]. unfold ordered_source in Hs. destruct (pe_type p) as [i more|o r s0|o s0|o r s0|k|].
    5: injection Hs as <-; exact I.
    all: match type of Hs with obind ?y _ = _ => destruct y as [y'|] eqn:Hy; cbn [obind] in Hs; [|discriminate] end;
      injection Hs as <-; cbn [fst]; exact (source_ready _ _ _ _ _ Hy).
Qed.
Lemma maps_ready d l : forall gl r, ordered_maps fmod degree centric au construct opens refuses d gl l = Some r ->
  Forall ready_command (fst r).
Proof.
  induction l as [|m l IH]; intros gl r; cbn [ordered_maps].
  - intros [= <-]. constructor.
  - intros H. destruct (ordered_map _ _ _ _ _ _ _ d gl m) as [x|] eqn:Hm; cbn [obind] in H; [|discriminate].
    match type of H with obind ?y _ = _ => destruct y as [s|] eqn:Hl; cbn [obind] in H; [|discriminate] end.
    injection H as <-. cbn [fst]. constructor; [|exact (IH _ _ Hl)].
    unfold ordered_map in Hm.
    repeat match type of Hm with obind ?y _ = _ => destruct y eqn:?; cbn [obind] in Hm; [|discriminate] end.
    destruct (_ && _) in Hm; [discriminate|]. injection Hm as <-. cbn [fst]. unfold ready_command. cbn [mc_images].
    eapply planes_ready. eassumption.
Qed.
End Parsed.

Lemma input_ready X m : from_input X m -> ready_command m.
Proof.
  intros (u & ts & cmds & H & I). unfold commands_of in H. apply run_agrees in H. destruct H as (d & gl & _ & H).
  apply maps_ready in H. rewrite Forall_forall in H. exact (H m I).
Qed.

(** ** C104 *)
Lemma all_some_nth {A B} (f : A -> option B) l : forall r j a, all_some f l = Some r -> nth_error l j = Some a ->
  exists b, f a = Some b /\ nth_error r j = Some b.
Proof.
  induction l as [|x l IH]; intros r [|j] a H J; try discriminate; cbn in H, J;
    (destruct (f x) as [y|] eqn:Hf; cbn in H; [|discriminate]); (destruct (all_some f l) as [ys|] eqn:Hl; cbn in H; [|discriminate]);
    injection H as <-; cbn [nth_error].
  - injection J as <-. eauto.
  - exact (IH ys j a eq_refl J).
Qed.

Lemma Forall2_nth_r {A B} (P : A -> B -> Prop) l l' : Forall2 P l l' -> forall n a, nth_error l n = Some a ->
  exists b, nth_error l' n = Some b /\ P a b.
Proof. induction 1; intros [|n] a' H'; try discriminate; cbn in *; [injection H' as <-; eauto|auto]. Qed.

Lemma default_entry X ts cmds n e : unmixed ts -> commands_of X (texts None ts) = Ok (Some cmds) ->
  nth_error (maps_of ts) n = Some e -> me_projection e = T_simple_c None ->
  exists m b, nth_error cmds n = Some m /\ from_input X m /\ body_spheroid (me_prograde e) (me_radii e) = Ok b /\
    mc_projection m = SimpleCylindrical b (double_of_Z (-90)) (double_of_Z 90) (double_of_Z 0) (double_of_Z 360) false /\
    forall j p, nth_error (me_plane e :: me_more_planes e) j = Some p -> pe_range p = no_range ->
    exists f, nth_error (mc_images m) j = Some f /\ if_limits f = ex_empty /\
      (forall k, pe_type p = T_latitude k -> if_source f = F_latitude b (is_graphic k)) /\
      (pe_type p = T_longitude -> if_source f = F_longitude).
Proof.
  intros U H N P. assert (H' := H). unfold commands_of in H. apply run_internal in H; [|exact U].
  destruct (Forall2_nth_r _ _ _ H n e N) as (m & Nm & Mm & _). exists m. unfold map_body in Mm.
  destruct (params_of e) as [pa|]; cbn [obind] in Mm; [|discriminate].
  destruct (body_spheroid (me_prograde e) (me_radii e)) as [b| |] eqn:Hb; cbn [done obind] in Mm; try discriminate.
  exists b. split; [exact Nm|]. split. { exists None, ts, cmds. split; [exact H'|]. eapply nth_error_In. exact Nm. }
  split; [reflexivity|].
  destruct (grid_says _ e) as [g|]; cbn [obind] in Mm; [|discriminate].
  unfold projection_of in Mm. rewrite P in Mm. cbn [projection_args obind] in Mm.
  match type of Mm with context [if ?c then _ else None] => destruct c; cbn [obind] in Mm; [|discriminate] end.
  destruct (kept _) as [sa|] in Mm; cbn [obind] in Mm; [|discriminate].
  destruct (kept _) as [li|] in Mm; cbn [obind] in Mm; [|discriminate].
  match type of Mm with obind ?y _ = _ => destruct y as [fs|] eqn:Hf; cbn [obind] in Mm; [|discriminate] end.
  injection Mm as <-. cbn [mc_projection mc_images]. split; [reflexivity|]. intros j p J R.
  destruct (all_some_nth _ _ _ _ _ Hf J) as (f & Pf & Jf). exists f. split; [exact Jf|].
  unfold plane_of in Pf. rewrite R in Pf. unfold limits_say in Pf. cbn [range_of obind fst snd number_or_none andb] in Pf.
  destruct (source_of _ _ _ _ _ _ _ b _ (pe_type p)) as [s|] eqn:Hs; cbn [obind] in Pf; [|discriminate]. injection Pf as <-.
  cbn [if_limits if_source]. split; [reflexivity|]. split; intros; match goal with E : pe_type p = _ |- _ => rewrite E in Hs end;
    cbn [source_of] in Hs; now injection Hs as <-.
Qed.

Theorem default_map X fuel status left_over removable ts cmds n e :
  ieee X -> (forall n, status n = 0%Z) -> accurate (x_scale X) ->
  unmixed ts -> commands_of X (texts None ts) = Ok (Some cmds) ->
  nth_error (maps_of ts) n = Some e -> me_projection e = T_simple_c None ->
  exists m b, nth_error cmds n = Some m /\ body_spheroid (me_prograde e) (me_radii e) = Ok b /\
  forall c w w' r, fits_size m -> (mc_lines m < 2 ^ 37)%Z -> (mc_samples m < 2 ^ 52)%Z ->
  command_of X fuel m = Some c -> execute status left_over removable c w = (w', Ok r) ->
  forall j p, nth_error (me_plane e :: me_more_planes e) j = Some p -> pe_range p = no_range ->
  (pe_type p = T_latitude None \/ pe_type p = T_latitude (Some Centric) ->
   exists t axes cards d rest, w_file w' = new_file (Hdu t axes cards d :: rest) /\
   forall k i, (0 <= k < mc_lines m)%Z -> (0 <= i < mc_samples m)%Z ->
   exists v y, d (element m (Z.of_nat j) k i) = Some (existT _ t v) /\
     stands_for t cards (Z.of_nat (List.length (mc_images m))) (Z.of_nat j + 1) v y /\
     Rabs (y - (-90 + 180 * fraction k (mc_lines m))) <= tolerance t latitude_plane + 1e-12) /\
  (pe_type p = T_longitude ->
   exists t axes cards d rest, w_file w' = new_file (Hdu t axes cards d :: rest) /\
   forall k i, (0 <= k < mc_lines m)%Z -> (0 <= i < mc_samples m)%Z ->
   exists v y z, d (element m (Z.of_nat j) k i) = Some (existT _ t v) /\
     stands_for t cards (Z.of_nat (List.length (mc_images m))) (Z.of_nat j + 1) v y /\
     Rabs (y - ((if prograde b then 360 - 360 * fraction i (mc_samples m) else 360 * fraction i (mc_samples m)) + 360 * IZR z))
       <= tolerance t longitude_plane + 1e-11).
Proof.
  intros I Hs A U H N P. destruct (default_entry X ts cmds n e U H N P) as (m & b & Nm & FI & Hb & Pm & Im).
  exists m, b. split; [exact Nm|]. split; [exact Hb|]. intros c w w' r Fs Hl Hs' C E j p J R.
  destruct (Im j p J R) as (f & Jf & Lf & S1 & S2).
  destruct (double_of_Z_exact (-90) ltac:(lia)) as [_ V1]. destruct (double_of_Z_exact 90 ltac:(lia)) as [_ V2].
  destruct (double_of_Z_exact 0 ltac:(lia)) as [_ V3]. destruct (double_of_Z_exact 360 ltac:(lia)) as [_ V4]. split.
  - intros T. assert (Sf : if_source f = F_latitude b false) by (destruct T as [T|T]; now rewrite (S1 _ T)).
    assert (Tall : IZR (mc_lines m) * 1e-9 <= Rabs (B2R (double_of_Z 90) - B2R (double_of_Z (-90)))).
    { rewrite V1, V2, Rabs_pos_eq by lra. apply IZR_lt in Hl. change (IZR (2 ^ 37)) with 137438953472 in Hl. lra. }
    destruct (latitudes X fuel status left_over removable m c w w' r j f b _ _ _ _ b I Hs (input_ready X m FI) Fs A C E Pm Tall Jf Lf Sf)
      as (params & t & axes & cards & d & rest & _ & _ & Hf & El).
    exists t, axes, cards, d, rest. split; [exact Hf|]. intros k i Hk Hi. destruct (El k i Hk Hi) as (v & y & Ev & Sy & Ny).
    exists v, y. split; [exact Ev|]. split; [exact Sy|]. unfold middle_latitude in Ny. rewrite V1, V2 in Ny.
    replace (-90 + 180 * fraction k (mc_lines m)) with (-90 + fraction k (mc_lines m) * (90 - -90)) by ring. exact Ny.
  - intros T. specialize (S2 T).
    assert (Apart : B2R (double_of_Z 0) = B2R (double_of_Z 360) \/ 1e-9 <= Rabs (B2R (double_of_Z 360) - B2R (double_of_Z 0))).
    { right. rewrite V3, V4, Rabs_pos_eq by lra. lra. }
    destruct (longitudes X fuel status left_over removable m c w w' r j f b _ _ _ _ I Hs (input_ready X m FI) Fs A C E Pm Apart Hs' Jf Lf S2)
      as (params & t & axes & cards & d & rest & _ & _ & Hf & El).
    exists t, axes, cards, d, rest. split; [exact Hf|]. intros k i Hk Hi. destruct (El k i Hk Hi) as (v & y & z & Ev & Sy & _ & Ny).
    exists v, y, z. split; [exact Ev|]. split; [exact Sy|]. unfold middle_longitude, longitude_ends in Ny. rewrite V3, V4 in Ny.
    rewrite Rcompare_Gt in Ny by lra.
    match goal with |- Rabs (y - (?a + _)) <= _ => match type of Ny with Rabs (y - (?b + _)) <= _ => replace a with b; [exact Ny|] end end.
    destruct (prograde b); ring.
Qed.
