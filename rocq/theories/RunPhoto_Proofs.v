(** Proofs for C105 to C107. *)
From Coq Require Import List ZArith Reals Bool String Lra Lia.
From Flocq Require Import Core BinarySingleNaN.
From Verif Require Import View_Model.
From Verif Require Import Base BaseFacts Flt FltFacts Num Maths_Model Spheroid_Model Extrema_Model Proj_Model Entry_Model Photo_Model Photo_Spec Proj_Spec MakeMap_Model MakeMap_Spec Extrema_Spec Params_Model
  Fits_Model Command_Model Command_Spec Input_Model Input_Spec Input_Proofs PhotoRead_Spec PhotoRead_Proofs Parse_Model Parse_Spec Parse_Proofs Run_Model Run_Spec Run_Proofs RunPlane_Proofs RunPhoto_Spec.
Import ListNotations.

#[local] Existing Instance prec53.
#[local] Existing Instance emax53.
Local Notation not_a_number := (B754_nan : double).

(** ** The calls on the viewing geometry *)
Section Calls.
Context (X : outside) (b : body).
Local Notation rad := (radians X).
Local Notation east := (radians_east X).

Definition effect (c : vcall) (g : geom ar_double) : geom ar_double :=
  match c with
  | v_sub_observ lat lon => set sub_observ_lon_ (east lon : ar_double) (set sub_observ_lat_ (rad lat : ar_double) g)
  | v_position_angle x => set position_angle_ (rad x : ar_double) g
  | v_sub_solar lat lon => set sub_solar_lon_ (east lon : ar_double) (set sub_solar_lat_ (rad lat : ar_double) g)
  | v_range x => set range_ (x : ar_double) g
  | v_km_per_pixel x => set km_per_pixel_ (x : ar_double) g
  | v_arcsec_per_pixel x =>
      set km_per_pixel_ (Bmult mode_NE (Bmult mode_NE (Bdiv mode_NE (l_pi (x_libm X)) (double_of_Z 648000)) x) (g range_) : ar_double) g
  | v_focal_length x => set focal_length_ (x : ar_double) g
  | v_scale x => set scale_ (x : ar_double) g
  | v_body_center s l => set line_center_ (l : ar_double) (set sample_center_ (s : ar_double) g)
  | v_lat_lon_center lat lon => set lon_at_center_ (east lon : ar_double) (set lat_at_center_ (rad lat : ar_double) g)
  | v_optical_axis s l => set OA_l_ (l : ar_double) (set OA_s_ (s : ar_double) g)
  | v_emi_ang_limit x => set mu_limit_ (l_cos (x_libm X) (rad x) : ar_double) g
  | v_use_terminator _ => g
  end.

Lemma lat_lon_effect m1 m2 lat lon g :
  snd (set_lat_lon (A := ar_double) (l_degree (x_libm X)) (l_2pi (x_libm X)) m1 m2 lat lon g) = None ->
  fst (set_lat_lon (A := ar_double) (l_degree (x_libm X)) (l_2pi (x_libm X)) m1 m2 lat lon g) =
  set m2 (east lon : ar_double) (set m1 (rad lat : ar_double) g).
Proof.
  unfold set_lat_lon, set_latitude, set_longitude, store, validate_latitude, validate_longitude.
  destruct (_ || _ || _)%bool; [discriminate|]. cbn [then_]. destruct (_ || _ || _)%bool; [discriminate|]. reflexivity.
Qed.
Lemma positions_effect m1 m2 s l g : snd (set_positions (A := ar_double) m1 m2 s l g) = None ->
  fst (set_positions (A := ar_double) m1 m2 s l g) = set m2 (l : ar_double) (set m1 (s : ar_double) g).
Proof.
  unfold set_positions, set_position. destruct (a_isnan _ s); [discriminate|]. cbn [then_]. destruct (a_isnan _ l); [discriminate|]. reflexivity.
Qed.
Lemma call_effect c g : snd (call_on X b c g) = None -> fst (call_on X b c g) = effect c g.
Proof.
  destruct c; cbn [call_on effect]; try apply lat_lon_effect; try apply positions_effect.
  - unfold set_position_angle, store, validate_position_angle. destruct (_ || _ || _)%bool; [discriminate|]. reflexivity.
  - unfold set_range. destruct (_ || _)%bool; [discriminate|]. reflexivity.
  - unfold set_positive. destruct (View_Model.a_le _ _); [discriminate|]. reflexivity.
  - unfold set_arcsec_per_pixel. destruct (View_Model.a_le _ _); [discriminate|]. destruct (a_isnan _ _); [discriminate|]. reflexivity.
  - unfold set_positive. destruct (View_Model.a_le _ _); [discriminate|]. reflexivity.
  - unfold set_positive. destruct (View_Model.a_le _ _); [discriminate|]. reflexivity.
  - unfold set_emi_ang_limit. destruct (a_lt _ _ _); [discriminate|]. reflexivity.
  - reflexivity.
Qed.

Lemma geom_after_snoc before c : geom_after X b (before ++ [c]) = fst (call_on X b c (geom_after X b before)).
Proof. unfold geom_after. now rewrite fold_left_app. Qed.
Lemma allowed_effects calls : forall before, allowed (refuses X) b before calls = true ->
  geom_after X b (before ++ calls) = fold_left (fun g c => effect c g) calls (geom_after X b before).
Proof.
  induction calls as [|c calls IH]; intros before H; cbn [allowed fold_left] in *; [now rewrite app_nil_r|].
  destruct (refuses X b before c) eqn:R; [discriminate|]. apply IH in H. rewrite <- app_assoc in H. change ([c] ++ calls)%list with (c :: calls) in H. rewrite H.
  rewrite geom_after_snoc. now rewrite call_effect.
Qed.

Local Notation after l start := (fold_left (fun g c => effect c g) l start).
Lemma after_options i m : after (option_calls i) geom_new m =
  match m with
  | OA_s_ => match ie_axis i with Some (sample_line_oa s _) | Some (line_sample_oa _ s) => s | None => not_a_number end
  | OA_l_ => match ie_axis i with Some (sample_line_oa _ l) | Some (line_sample_oa l _) => l | None => not_a_number end
  | mu_limit_ => match ie_emi_ang_limit i with Some x => l_cos (x_libm X) (rad x) | None => double_of_Z 0 end
  | _ => not_a_number
  end.
Proof.
  unfold option_calls. destruct (ie_axis i) as [[|]|], (ie_emi_ang_limit i), (ie_terminator i); destruct m; reflexivity.
Qed.
Lemma after_scale e k g m : scale_calls e = Some k -> g km_per_pixel_ = not_a_number -> g focal_length_ = not_a_number -> g scale_ = not_a_number ->
  after k g m =
  match m with
  | km_per_pixel_ =>
      match e with
      | km_per_pixel x => x
      | arcsec_per_pix x =>
          Bmult mode_NE (Bmult mode_NE (Bdiv mode_NE (l_pi (x_libm X)) (double_of_Z 648000)) x) (g range_)
      | _ => not_a_number
      end
  | focal_length_ =>
      match e with focal_scale f _ | scale_focal _ f => if flt (double_of_Z 0) f then f else not_a_number | _ => not_a_number end
  | scale_ =>
      match e with focal_scale _ s | scale_focal s _ => if flt (double_of_Z 0) s then s else not_a_number | _ => not_a_number end
  | _ => g m
  end.
Proof.
  intros H G1 G2 G3. destruct e as [x|x|x y|x y]; cbn [scale_calls] in H; unfold positive in H.
  - destruct (flt _ _); [|discriminate]. injection H as <-. destruct m; try reflexivity; assumption.
  - destruct (flt _ _); [|discriminate]. injection H as <-. destruct m; try reflexivity; assumption.
  - injection H as <-. destruct (flt _ x), (flt _ y); destruct m; try reflexivity; assumption.
  - injection H as <-. destruct (flt _ x), (flt _ y); destruct m; try reflexivity; assumption.
Qed.
Lemma after_centers e k g m :
  center_calls (x_fmod X) (l_degree (x_libm X)) (x_centric X) b e = Some k ->
  g sample_center_ = not_a_number -> g line_center_ = not_a_number -> g lat_at_center_ = not_a_number -> g lon_at_center_ = not_a_number ->
  let c := match e with at_center p => point_means X b p | _ => None end in
  let center a b x := if two_numbers a b then x else not_a_number in
  after k g m =
  match m with
  | sample_center_ => match e with sample_line s l | line_sample l s => center s l s | at_center _ => not_a_number end
  | line_center_ => match e with sample_line s l | line_sample l s => center s l l | at_center _ => not_a_number end
  | lat_at_center_ => match c with Some (lat, lon) => center lat lon (rad lat) | None => not_a_number end
  | lon_at_center_ => match c with Some (lat, lon) => center lat lon (east lon) | None => not_a_number end
  | _ => g m
  end.
Proof.
  intros H G1 G2 G3 G4. destruct e as [s l|l s|p]; cbn [center_calls] in H.
  - injection H as <-. cbv beta zeta. destruct (two_numbers s l); destruct m; try reflexivity; assumption.
  - injection H as <-. cbv beta zeta. destruct (two_numbers s l); destruct m; try reflexivity; assumption.
  - unfold point_means. destruct (point_of _ _ _ b p) as [[lat lon]|]; cbn [obind fst snd] in H; [|discriminate].
    injection H as <-. cbv beta zeta. destruct (two_numbers lat lon); destruct m; try reflexivity; assumption.
Qed.
End Calls.

Lemma terminator_of_entry X b i k c o pa s r : scale_calls (ie_scale i) = Some k ->
  center_calls (x_fmod X) (l_degree (x_libm X)) (x_centric X) b (ie_centers i) = Some c ->
  terminator_after (option_calls i ++ [v_sub_observ (fst o) (snd o); v_position_angle pa; v_sub_solar (fst s) (snd s); v_range r] ++ k ++ c)
  = or_else (ie_terminator i) false.
Proof.
  intros Hk Hc. unfold terminator_after. rewrite !fold_left_app. cbn [fold_left].
  assert (K : forall t, fold_left (fun t c => match c with v_use_terminator u => u | _ => t end) k t = t).
  { intros t. destruct (ie_scale i) as [x|x|x y|x y]; cbn [scale_calls] in Hk.
    1, 2: destruct (positive x); [|discriminate]; injection Hk as <-; reflexivity.
    all: injection Hk as <-; destruct (positive x), (positive y); reflexivity. }
  assert (C : forall t, fold_left (fun t c => match c with v_use_terminator u => u | _ => t end) c t = t).
  { intros t. destruct (ie_centers i) as [x y|x y|p]; cbn [center_calls] in Hc.
    1, 2: injection Hc as <-; destruct (two_numbers _ _); reflexivity.
    destruct (point_of _ _ _ b p) as [q|]; cbn [obind] in Hc; [|discriminate]. injection Hc as <-. destruct (two_numbers _ _); reflexivity. }
  rewrite C, K. unfold option_calls. destruct (ie_axis i) as [[|]|], (ie_emi_ang_limit i), (ie_terminator i); reflexivity.
Qed.

(** ** C105 *)
Theorem photo_of_entry X d b i ph : image_means X d b i = Some ph ->
  exists o s pa c n g,
    point_means X b (ie_sub_observ i) = Some o /\ point_means X b (ie_sub_solar i) = Some s /\
    angle_of (x_fmod X) (ie_position_angle i) = Some pa /\
    (match ie_centers i with at_center p => c = point_means X b p /\ c <> None | _ => c = None end) /\
    nibbles_of (d_nibbles d) (ie_nibbling i) = Some n /\
    (forall m, g m = seen X i o s pa c m) /\
    forall limits, photo_of X ph limits =
      PhotoSource (x_file X (ie_file i))
        (match or_else (ie_flat_field i) EmptyString with EmptyString => None | s => Some (x_file X s) end)
        (or_else (ie_geom_correct i) false) (or_else (ie_interpolate i) false)
        (match ie_inversion i with Some vertical | Some both_ways => true | _ => false end)
        (match ie_inversion i with Some horizontal | Some both_ways => true | _ => false end)
        (Some (Photo_Model.Nibbles (nb_left n) (nb_right n) (nb_top n) (nb_bottom n), or_else (ie_remove_sky i) false))
        (Some (x_geometry X b g (or_else (ie_terminator i) false))) limits.
Proof.
  unfold image_means, image_of, point_means. intros H.
  destruct (nibbles_of _ _) as [n|]; cbn [obind] in H; [|discriminate].
  destruct (center_calls _ _ _ b (ie_centers i)) as [cc|] eqn:Hc; cbn [obind] in H; [|discriminate].
  destruct (point_of _ _ _ b (ie_sub_observ i)) as [o|]; cbn [obind] in H; [|discriminate].
  destruct (angle_of _ _) as [pa|]; cbn [obind] in H; [|discriminate].
  destruct (point_of _ _ _ b (ie_sub_solar i)) as [s|]; cbn [obind] in H; [|discriminate].
  destruct (scale_calls _) as [k|] eqn:Hk; cbn [obind] in H; [|discriminate].
  destruct (_ && _)%bool eqn:Ha in H; [|discriminate]. injection H as <-. apply andb_prop in Ha. destruct Ha as [_ Ha].
  exists o, s, pa, (match ie_centers i with at_center p => point_of (x_fmod X) (l_degree (x_libm X)) (x_centric X) b p | _ => None end), n.
  exists (geom_after X b (option_calls i ++ [v_sub_observ (fst o) (snd o); v_position_angle pa; v_sub_solar (fst s) (snd s);
                       v_range (range_km (x_au X) (ie_range i))] ++ k ++ cc)).
  do 3 (split; [reflexivity|]).
  split. { destruct (ie_centers i) as [| |p]; [reflexivity|reflexivity|]. split; [reflexivity|]. cbn [center_calls] in Hc.
    destruct (point_of _ _ _ b p); [discriminate|discriminate Hc]. }
  split; [reflexivity|]. split.
  2: { intros limits. unfold photo_of.
    cbn [Parse_Model.ph_file Parse_Model.ph_flat_field ph_geometric_correction ph_interpolate ph_invert_v ph_invert_h Parse_Model.ph_config
         Parse_Model.ph_geometry option_map pr_nibbles pr_remove_sky vw_body vw_calls].
    assert (T := terminator_of_entry X b i k cc o pa s (range_km (x_au X) (ie_range i)) Hk Hc). 
    match goal with |- context [terminator_after ?l] => replace (terminator_after l) with (or_else (ie_terminator i) false) by (symmetry; exact T) end.
    reflexivity. }
  intros m. assert (G := f_equal (fun g => g m) (allowed_effects X b _ [] Ha)). cbv beta in G. etransitivity; [exact G|]. clear G.
  change (geom_after X b []) with geom_new. rewrite !fold_left_app.
  cbn [fold_left]. set (g4 := effect X (v_range _) _).
  assert (G4 : forall m', g4 m' = match m' with
    | range_ => range_km (x_au X) (ie_range i) | sub_solar_lon_ => radians_east X (snd s) | sub_solar_lat_ => radians X (fst s)
    | position_angle_ => radians X pa | sub_observ_lon_ => radians_east X (snd o) | sub_observ_lat_ => radians X (fst o)
    | m' => fold_left (fun g c => effect X c g) (option_calls i) geom_new m' end) by (intros m'; destruct m'; reflexivity).
  clearbody g4.
  assert (S : forall m', fold_left (fun g c => effect X c g) k g4 m' = _) by (intros m'; apply (after_scale X _ k g4 m' Hk); rewrite G4, after_options; reflexivity).
  rewrite (after_centers X b _ cc _ m Hc); try (rewrite S, G4, after_options; reflexivity).
  destruct m; cbn [seen]; try reflexivity; rewrite S, ?G4, ?after_options; reflexivity.
Qed.

(** The image of a plane of photos. *)
Theorem photo_entry X ts cmds n e j p is : unmixed ts -> commands_of X (texts None ts) = Ok (Some cmds) ->
  nth_error (maps_of ts) n = Some e -> nth_error (me_plane e :: me_more_planes e) j = Some p ->
  (exists i more, pe_type p = T_image i more /\ is = i :: more) ->
  exists m b f, nth_error cmds n = Some m /\ from_input X m /\ body_spheroid (me_prograde e) (me_radii e) = Ok b /\
    nth_error (mc_images m) j = Some f /\
    limits_say (Defaults (double_of_Z 10) (double_of_Z 10) None None (Nibbles 0 0 0 0)) (pe_range p) = Some (if_limits f) /\
  exists l, all_some (image_means X (Defaults (double_of_Z 10) (double_of_Z 10) None None (Nibbles 0 0 0 0)) b) is = Some l /\
    if_source f = (match l with [p] => F_photo p | _ => F_mosaic l (average_of (me_projection e)) end).
Proof.
  intros U H N J (i & more & T & ->). assert (H' := H). unfold commands_of in H. apply run_internal in H; [|exact U].
  destruct (Forall2_nth_r _ _ _ H n e N) as (m & Nm & Mm & _). exists m. unfold map_body in Mm.
  destruct (params_of e) as [pa|]; cbn [obind] in Mm; [|discriminate].
  destruct (body_spheroid (me_prograde e) (me_radii e)) as [b| |] eqn:Hb; cbn [done obind] in Mm; try discriminate.
  exists b.
  destruct (grid_says _ e) as [g|]; cbn [obind] in Mm; [|discriminate].
  destruct (projection_of _ _ _ _ _ _) as [x|] in Mm; cbn [obind] in Mm; [|discriminate].
  destruct (kept _) as [sa|] in Mm; cbn [obind] in Mm; [|discriminate].
  destruct (kept _) as [li|] in Mm; cbn [obind] in Mm; [|discriminate].
  match type of Mm with obind ?y _ = _ => destruct y as [fs|] eqn:Hf; cbn [obind] in Mm; [|discriminate] end.
  injection Mm as <-. destruct (all_some_nth _ _ _ _ _ Hf J) as (f & Pf & Jf).
  unfold plane_of in Pf. destruct (limits_say _ (pe_range p)) as [ex|] eqn:Hl; cbn [obind] in Pf; [|discriminate].
  destruct (source_of _ _ _ _ _ _ _ b _ (pe_type p)) as [s|] eqn:Hs; cbn [obind] in Pf; [|discriminate]. injection Pf as <-.
  rewrite T in Hs. unfold source_of in Hs.
  match type of Hs with obind ?y _ = _ => destruct y as [l|] eqn:Hi; cbn [obind] in Hs; [|discriminate] end. injection Hs as <-.
  eexists. split; [exact Nm|]. split. { exists None, ts, cmds. split; [exact H'|]. eapply nth_error_In. exact Nm. }
  split; [reflexivity|]. split; [exact Jf|]. split; [reflexivity|]. exists l. split; [exact Hi|]. reflexivity.
Qed.
Lemma all_some_Forall2 {A B} (f : A -> option B) l r : all_some f l = Some r -> Forall2 (fun a b => f a = Some b) l r.
Proof.
  revert r. induction l as [|a l IH]; intros r H; cbn [all_some] in H; [injection H as <-; constructor|].
  destruct (f a) as [b|] eqn:Hf; cbn [obind] in H; [|discriminate]. destruct (all_some f l) as [bs|]; cbn [obind] in H; [|discriminate].
  injection H as <-. constructor; [exact Hf|]. now apply IH.
Qed.

Lemma limits_say_range d r ex : limits_say d r = Some ex -> range_of (d_minimum d, d_maximum d) r = Some (e_min ex, e_max ex).
Proof.
  unfold limits_say. destruct (range_of _ r) as [[a b]|]; cbn [obind fst snd]; [|discriminate].
  destruct (_ && _); [|discriminate]. intros H. injection H as <-. reflexivity.
Qed.

Lemma entry_follows X b i ph limits :
  image_means X (Defaults (double_of_Z 10) (double_of_Z 10) None None (Nibbles 0 0 0 0)) b i = Some ph -> follows X b i limits (photo_of X ph limits).
Proof.
  intros Im. destruct (photo_of_entry X _ b i ph Im) as (o & s & pa & c & nb & g & H1 & H2 & H3 & H4 & H5 & H6 & H7).
  exists o, s, pa, c, nb, g. repeat (split; [assumption|]). apply H7.
Qed.

Theorem photo_plane_entry X ts cmds n e j p i : unmixed ts -> commands_of X (texts None ts) = Ok (Some cmds) ->
  nth_error (maps_of ts) n = Some e -> nth_error (me_plane e :: me_more_planes e) j = Some p -> pe_type p = T_image i [] ->
  exists m b f ph, nth_error cmds n = Some m /\ body_spheroid (me_prograde e) (me_radii e) = Ok b /\
    nth_error (mc_images m) j = Some f /\ if_source f = F_photo ph /\
    range_of (None, None) (pe_range p) = Some (e_min (if_limits f), e_max (if_limits f)) /\
    follows X b i (if_limits f) (photo_of X ph (if_limits f)).
Proof.
  intros U H N J T. destruct (photo_entry X ts cmds n e j p [i] U H N J) as (m & b & f & Nm & _ & Hb & Jf & Lm & l & Im & Sf).
  { rewrite T. exists i, []. auto. }
  cbn [all_some] in Im. destruct (image_means _ _ b i) as [ph|] eqn:Hi; cbn [obind] in Im; [|discriminate]. injection Im as <-.
  exists m, b, f, ph. repeat (split; [assumption|]). split; [exact (limits_say_range _ _ _ Lm)|]. exact (entry_follows X b i ph _ Hi).
Qed.

Theorem mosaic_plane_entry X ts cmds n e j p i i' more : unmixed ts -> commands_of X (texts None ts) = Ok (Some cmds) ->
  nth_error (maps_of ts) n = Some e -> nth_error (me_plane e :: me_more_planes e) j = Some p -> pe_type p = T_image i (i' :: more) ->
  exists m b f l, nth_error cmds n = Some m /\ body_spheroid (me_prograde e) (me_radii e) = Ok b /\
    nth_error (mc_images m) j = Some f /\ if_source f = F_mosaic l (average_of (me_projection e)) /\
    range_of (None, None) (pe_range p) = Some (e_min (if_limits f), e_max (if_limits f)) /\
    Forall2 (fun i => follows X b i ex_empty) (i :: i' :: more) (map (fun ph => photo_of X ph ex_empty) l).
Proof.
  intros U H N J T. destruct (photo_entry X ts cmds n e j p (i :: i' :: more) U H N J) as (m & b & f & Nm & _ & Hb & Jf & Lm & l & Im & Sf).
  { rewrite T. exists i, (i' :: more). auto. }
  exists m, b, f, l. repeat (split; [assumption|]).
  assert (F : Forall2 (fun i ph => image_means X (Defaults (double_of_Z 10) (double_of_Z 10) None None (Nibbles 0 0 0 0)) b i = Some ph) (i :: i' :: more) l)
    by (exact (all_some_Forall2 _ _ _ Im)).
  split. { rewrite Sf. inversion F as [|? ? ? ? _ F']; subst. inversion F'; subst. reflexivity. }
  split; [exact (limits_say_range _ _ _ Lm)|]. clear - F. induction F as [|a ph la lp Hi _ IH]; cbn [map]; constructor; [|exact IH].
  exact (entry_follows X b a ph _ Hi).
Qed.

(** ** C106 *)
Lemma proper_unique (src : photo_source ar_double place) ready n sky s l ready' n' sky' s' l' :
  proper (A := ar_double) src ready n sky s l -> proper (A := ar_double) src ready' n' sky' s' l' ->
  ready = ready' /\ n = n' /\ sky = sky' /\ s = s' /\ l = l'.
Proof.
  intros [A1 C1 (g & G1 & R1) _ _ _ _] [A2 C2 (g' & G2 & R2) _ _ _ _].
  rewrite A1 in A2. injection A2 as <- <-. rewrite C1 in C2. injection C2 as <- <-. rewrite G1 in G2. injection G2 as <-.
  rewrite R1 in R2. injection R2 as <-. auto.
Qed.
Lemma has_unique src q r r' : has src q r -> has src q r' -> r = r'.
Proof.
  intros (a1 & a2 & a3 & a4 & a5 & P1 & F1) (b1 & b2 & b3 & b4 & b5 & P2 & F2).
  destruct (proper_unique _ _ _ _ _ _ _ _ _ _ _ P1 P2) as (<- & <- & <- & <- & <-).
  exact (finds_unique (A := ar_double) (not_a_number : ar_double) _ _ _ _ _ _ _ _ _ F1 F2).
Qed.
Lemma has_numeric src q r : has src q r -> numeric (A := ar_double) r.
Proof.
  intros (ready & n & sky & s & l & _ & F). destruct r as [| |v w]; cbn [numeric]; try exact I.
  exact (datum_number (A := ar_double) (not_a_number : ar_double) _ _ _ _ _ _ _ _ _ F).
Qed.

(** The photo made of a sound source. *)
Lemma sound_read src f' p q : sound src -> Input_Model.photo_make (A := ar_double) (not_a_number : ar_double) src = Ok (Some p, f') ->
  (exists r, has src q r /\ behaves (A := ar_double) (photo_read (A := ar_double) p q) r /\
     wbehaves (A := ar_double) (photo_read_w (A := ar_double) p q true) r) \/
  ((forall d x, photo_read (A := ar_double) p q d <> Ok x) /\ (forall d w x, photo_read_w (A := ar_double) p q true d w <> Ok x) /\
   forall r, ~ has src q r).
Proof.
  intros [Fl (ready & n & sky & s & l & Pr)] Mk.
  destruct (read_finds (A := ar_double) (P := place) (not_a_number : ar_double) src f' p ready n sky s l Fl Mk Pr q) as [(r & Fd & Rd)|[St No]].
  - left. exists r. split; [exists ready, n, sky, s, l; auto|]. split.
    + intros d. unfold photo_read. rewrite Rd. reflexivity.
    + intros d w. rewrite Rd. unfold weighed. reflexivity.
  - right. split; [|split].
    + intros d x Q. unfold photo_read in Q. destruct (St false d (a_of_Z ar_double 1)) as [[u E]|[e E]]; rewrite E in Q; discriminate.
    + intros d w x Q. destruct (St true d w) as [[u E]|[e E]]; rewrite E in Q; discriminate.
    + intros r (b1 & b2 & b3 & b4 & b5 & P2 & F2). destruct (proper_unique _ _ _ _ _ _ _ _ _ _ _ Pr P2) as (<- & <- & <- & <- & <-).
      exact (No r F2).
Qed.

Theorem photo_plane X fuel status left_over removable m c w w' r j f ph :
  (forall n, status n = 0%Z) -> ready_command m -> fits_size m ->
  command_of X fuel m = Some c -> execute status left_over removable c w = (w', Ok r) ->
  nth_error (mc_images m) j = Some f -> if_source f = F_photo ph ->
  let src := photo_of X ph (if_limits f) in
  sound src ->
  exists params t axes cards d rest o,
    populate_map_parameters (map (parameters_of X) (mc_images m)) (mc_params m) = Ok params /\
    type_of_bitpix (p_bitpix params) = Some t /\
    w_file w' = new_file (Hdu t axes cards d :: rest) /\
    calls_of X (mc_projection m) (mc_samples m) (mc_lines m) = (c_calls c, Ok o) /\
    forall lo hi, plane_limits t (Extrema (T := ct F64) (first_given (e_min (if_limits f)) (ff_datamin (ps_file src)))
                                     (first_given (e_max (if_limits f)) (ff_datamax (ps_file src)))) lo hi ->
    exists blank, blank_of t (p_blank params) = Some blank /\
    forall k i, (0 <= k < mc_lines m)%Z -> (0 <= i < mc_samples m)%Z ->
    exists v, d (element m (Z.of_nat j) k i) = Some (existT _ t v) /\
      ((exists q x, plotted (mc_samples m) (c_calls c) k i q /\ pictures src q x /\ within lo hi x /\ MakeMap_Spec.holds t v x) \/
       (v = blank /\ forall q x, plotted (mc_samples m) (c_calls c) k i q -> pictures src q x -> ~ within lo hi x)).
Proof.
  intros fine R Fs C E J Sf src So.
  destruct (elements X fuel status left_over removable m c w w' r fine R Fs C E)
    as (params & t & axes & cards & d & rest & o & Pp & Pt & Pf & Pc & El).
  destruct (El j f J) as (image & ex & before & after & Mk & _ & Cells). clear El.
  unfold make_of in Mk. rewrite Sf in Mk. apply bind_ok in Mk. destruct Mk as ([op f'] & Mk & Eq).
  destruct op as [p|]; cbn [option_map] in Eq; [|discriminate]. injection Eq as <- <-.
  unfold photo_make_of in Mk. fold src in Mk.
  destruct (photo_limits (A := ar_double) (P := place) (B754_nan : double) src f' p Mk) as (_ & _ & _ & L1 & L2).
  exists params, t, axes, cards, d, rest, o. repeat (split; [assumption|]). intros lo hi PL.
  assert (An' : forall q x, photo_read (A := ar_double) p q zero_datum = Ok (true, x) <-> pictures src q x).
  { intros q x. unfold pictures. destruct (sound_read src f' p q So Mk) as [(rr & Hr & B & _)|(St & _ & No)].
    - rewrite (B zero_datum). split.
      + destruct rr as [| |v wt]; cbn [answer]; change (a_isnan ar_double zero_datum) with false; cbv iota; intros Q; try discriminate.
        assert (Q' : v = x) by (injection Q; auto). rewrite <- Q'. exists wt. exact Hr.
      + intros [wt Hw]. rewrite (has_unique _ _ _ _ Hr Hw). reflexivity.
    - split; [intros Q; now apply St in Q|]. intros [wt Hw]. now apply No in Hw. }
  assert (PL' : plane_limits t (ps_limits f') lo hi).
  { destruct (ps_limits f') as [a b]. cbn [e_min e_max] in L1, L2. subst a b. exact PL. }
  destruct (Cells lo hi PL') as (blank & Bl & Cells'). exists blank. split; [exact Bl|]. intros k i Hk Hi.
  destruct (Cells' k i Hk Hi) as (v & Dv & Sh). exists v. split; [exact Dv|]. cbn [si_read] in Sh. destruct Sh as [(q & x & I1 & Rq & W & Hv)|[-> Sh]].
  - left. exists q, x. split; [exact I1|]. split; [apply An'; exact Rq|]. auto.
  - right. split; [reflexivity|]. intros q x I1 Pq W. destruct (Sh q I1) as (ok & y & Rq & No). apply An' in Pq. rewrite Pq in Rq.
    injection Rq as <- <-. destruct No; [discriminate|contradiction].
Qed.

Theorem plain_pictures (src : photo_source ar_double place) ready n s l q w : proper (A := ar_double) src ready n false s l -> ps_interpolate src = false ->
  (pictures src q w <-> plainly src ready n s l q w).
Proof.
  intros Pr Ip. unfold pictures, plainly. split.
  - intros (wt & b1 & b2 & b3 & b4 & b5 & P2 & F2). destruct (proper_unique _ _ _ _ _ _ _ _ _ _ _ Pr P2) as (<- & <- & <- & <- & <-).
    pose proof (datum_number (A := ar_double) (not_a_number : ar_double) _ _ _ _ _ _ _ _ _ F2) as Nw.
    unfold finds in F2. destruct (g_pix ready q) as [[vis x] z] eqn:Gp. destruct vis; cbn [negb orb] in F2; [|discriminate].
    destruct (a_lt ar_double x (a_of_Z ar_double 0)) eqn:Lx; cbn [orb] in F2; [discriminate|].
    destruct (a_lt ar_double z (a_of_Z ar_double 0)) eqn:Lz; cbn [orb] in F2; [discriminate|].
    destruct F2 as (i & k & Ei & Ek & [[_ Q]|[In Q]]); [discriminate|]. cbn [andb negb] in Q. unfold at_pixel in Q. rewrite Ip in Q. unfold judged in Q.
    destruct (number _); [|discriminate]. injection Q as Q _. exists x, z, i, k. repeat (split; [reflexivity || assumption|]). exact Nw.
  - intros (x & z & i & k & Gp & Lx & Lz & Ei & Ek & In & Ew & Nw). eexists. exists ready, n, false, s, l. split; [exact Pr|].
    unfold finds. rewrite Gp. change (a_lt ar_double x (a_of_Z ar_double 0)) with (flt x (double_of_Z 0)). rewrite Lx.
    change (a_lt ar_double z (a_of_Z ar_double 0)) with (flt z (double_of_Z 0)). rewrite Lz. cbn [negb orb]. exists i, k.
    split; [exact Ei|]. split; [exact Ek|]. right. split; [exact In|]. cbn [andb]. unfold at_pixel. rewrite Ip. cbv zeta. unfold judged, number.
    rewrite <- Ew. change (a_isnan ar_double w) with (is_nan w). rewrite Nw. reflexivity.
Qed.

(** ** C107 *)
Lemma made_some (src : photo_source ar_double place) o f' : sound src -> Input_Model.photo_make (A := ar_double) (not_a_number : ar_double) src = Ok (o, f') ->
  exists p, o = Some p.
Proof.
  intros [_ (ready & n & sky & s & l & [_ Cf (g & Gm & _) _ _ _ _])]. unfold Input_Model.photo_make. rewrite Cf, Gm. intros H.
  repeat match type of H with bind ?x _ = Ok _ => destruct x as [?| |]; cbn [bind] in H; [|discriminate|discriminate] | context [let '(_, _) := ?y in _] => destruct y end.
  injection H as <- _. eauto.
Qed.

Lemma mosaic_limits l own ex : l <> [] -> (forall f, In f l -> pl_ex f = ex_empty) -> mosaic_make l own = Ok ex -> ex = own.
Proof.
  intros Ne Em H. unfold mosaic_make in H. apply bind_ok in H. destruct H as ([[ex' vmin] vmax] & H & Q).
  assert (V : vmin = false /\ vmax = false).
  { destruct l as [|f l]; [congruence|]. cbn [mosaic_loop] in H. rewrite (Em f) in H by (left; reflexivity). cbn [e_min e_max ex_empty] in H.
    apply bind_ok in H. destruct H as (_ & _ & H). clear Ne. assert (Em' : forall f, In f l -> pl_ex f = ex_empty) by (intros; apply Em; right; assumption).
    clear Em. revert H. generalize (ex_merge ex_empty (ex_empty : extrema (ct F64))). induction l as [|f' l IH]; intros e H; cbn [mosaic_loop] in H.
    - injection H as _ <- <-. auto.
    - rewrite (Em' f') in H by (left; reflexivity). cbn [e_min e_max ex_empty] in H. apply bind_ok in H. destruct H as (_ & _ & H).
      apply (IH (fun g G => Em' g (or_intror G)) _ H). }
  destruct V as [-> ->]. cbn [bind] in Q. congruence.
Qed.

Lemma photos_made X l photos : photos_of X l = Ok photos -> Forall (fun ph => sound (photo_of X ph ex_empty)) l ->
  Forall2 (fun ph o => exists p f', o = Some p /\ Input_Model.photo_make (A := ar_double) (not_a_number : ar_double) (photo_of X ph ex_empty) = Ok (Some p, f')) l photos.
Proof.
  revert photos. induction l as [|ph l IH]; intros photos H So; cbn [photos_of] in H.
  - injection H as <-. constructor.
  - apply bind_ok in H. destruct H as ([o f'] & M & H). apply bind_ok in H. destruct H as (ps & Hp & Q). injection Q as <-.
    apply Forall_cons_iff in So. destruct So as [S1 S2]. constructor; [|now apply IH]. cbn [fst]. unfold photo_make_of in M.
    destruct (made_some _ _ _ S1 M) as [p ->]. exists p, f'. split; [reflexivity|exact M].
Qed.

Definition opt_read (q : place) (o : option (Photo_Model.photo ar_double place)) : Photo_Model.image ar_double :=
  match o with Some p => photo_read (A := ar_double) p q | None => fun _ => UB ub_null end.
Definition opt_read_w (q : place) (o : option (Photo_Model.photo ar_double place)) : wimage ar_double :=
  match o with Some p => photo_read_w (A := ar_double) p q true | None => fun _ _ => UB ub_null end.

Lemma Forall2_map_fst {A B C} (R : A -> C -> Prop) (l : list (A * B)) rs : Forall2 R (map fst l) rs <-> Forall2 (fun p r => R (fst p) r) l rs.
Proof.
  revert rs. induction l as [|a l IH]; intros rs; split; intros H; inversion H; subst; constructor; try assumption; now apply IH.
Qed.

Lemma composite_composes X a srcs photos q x :
  Forall2 (fun src o => exists p f', o = Some p /\ Input_Model.photo_make (A := ar_double) (not_a_number : ar_double) src = Ok (Some p, f')) srcs photos ->
  Forall sound srcs ->
  (mosaic_read (A := ar_double) (composite X a photos q) zero_datum = Ok (true, x) <-> composes X a srcs q x).
Proof.
  intros Mk So.
  assert (Z : exists l, map fst l = srcs /\ map snd l = photos /\
    Forall (fun p => exists p' f', snd p = Some p' /\ sound (fst p) /\ Input_Model.photo_make (A := ar_double) (not_a_number : ar_double) (fst p) = Ok (Some p', f')) l).
  { induction Mk as [|src o srcs photos (p & f' & Eo & M) _ IH]; [exists []; auto|]. apply Forall_cons_iff in So. destruct So as [S1 S2].
    destruct (IH S2) as (l & E1 & E2 & F). exists ((src, o) :: l). cbn [map fst snd]. rewrite E1, E2. split; [reflexivity|]. split; [reflexivity|].
    constructor; [|exact F]. exists p, f'. auto. }
  destruct Z as (l & <- & <- & F). clear Mk So.
  set (hs := fun (p : photo_source ar_double place * option (Photo_Model.photo ar_double place)) r => has (fst p) q r).
  assert (K : Forall (known (A := ar_double) hs (fun p => opt_read q (snd p)) (fun p => opt_read_w q (snd p))) l).
  { eapply Forall_impl; [|exact F]. intros [src o] (p & f' & Eo & S1 & M). cbn [fst snd] in Eo, S1, M. unfold known, hs. cbn [fst snd]. rewrite Eo. cbn [opt_read opt_read_w].
    destruct (sound_read src f' p q S1 M) as [(r & Hr & B & W)|St]; [left|right; exact St]. exists r. split; [exact Hr|]. split; [exact (has_numeric _ _ _ Hr)|]. auto. }
  assert (Un : forall i r r', hs i r -> hs i r' -> r = r') by (intros i r r'; apply has_unique).
  assert (N0 : a_isnan ar_double (zero_datum : ar_double) = false) by reflexivity.
  unfold composite, composes. rewrite !map_map.
  assert (E1 : map (fun p : photo_source ar_double place * option (Photo_Model.photo ar_double place) => match snd p with Some p => photo_read (A := ar_double) p q | None => fun _ => UB ub_null end) l =
               map (fun p => opt_read q (snd p)) l) by reflexivity.
  assert (E2 : map (fun p : photo_source ar_double place * option (Photo_Model.photo ar_double place) => match snd p with Some p => photo_read_w (A := ar_double) p q true | None => fun _ _ => UB ub_null end) l =
               map (fun p => opt_read_w q (snd p)) l) by reflexivity.
  destruct a.
  - rewrite E1. rewrite (first_found (A := ar_double) hs _ _ Un l zero_datum x K N0). split.
    + intros (b & i & a & rs & wt & -> & F2 & Si & Hd). exists (map fst b), (fst i), (map fst a), rs. rewrite map_app. cbn [map].
      split; [reflexivity|]. split; [apply Forall2_map_fst; exact F2|]. split; [exact Si|]. exists wt. exact Hd.
    + intros (b & src & a & rs & E & F2 & Si & (wt & Hd)). apply map_eq_app in E. destruct E as (b' & a' & -> & <- & E).
      apply map_eq_cons in E. destruct E as (i & a'' & -> & <- & <-). exists b', i, a'', rs, wt. split; [reflexivity|].
      split; [exact (proj1 (Forall2_map_fst _ _ _) F2)|]. auto.
  - rewrite E1. rewrite (unweighted_composed (A := ar_double) hs _ _ Un (x_long X) l zero_datum x K N0).
    split; intros (rs & F2 & Q); exists rs; (split; [first [exact (proj1 (Forall2_map_fst _ _ _) F2) | exact (proj2 (Forall2_map_fst _ _ _) F2)]|exact Q]).
  - rewrite E2. rewrite (weighted_composed (A := ar_double) hs _ _ Un (x_long X) l zero_datum x K N0).
    split; intros (rs & F2 & Q); exists rs; (split; [first [exact (proj1 (Forall2_map_fst _ _ _) F2) | exact (proj2 (Forall2_map_fst _ _ _) F2)]|exact Q]).
Qed.

Theorem mosaic_plane X fuel status left_over removable m c w w' r j f l a :
  (forall n, status n = 0%Z) -> ready_command m -> fits_size m ->
  command_of X fuel m = Some c -> execute status left_over removable c w = (w', Ok r) ->
  nth_error (mc_images m) j = Some f -> if_source f = F_mosaic l a -> l <> [] ->
  let srcs := map (fun ph => photo_of X ph ex_empty) l in
  Forall sound srcs ->
  exists params t axes cards d rest o,
    populate_map_parameters (map (parameters_of X) (mc_images m)) (mc_params m) = Ok params /\
    type_of_bitpix (p_bitpix params) = Some t /\
    w_file w' = new_file (Hdu t axes cards d :: rest) /\
    calls_of X (mc_projection m) (mc_samples m) (mc_lines m) = (c_calls c, Ok o) /\
    forall lo hi, plane_limits t (if_limits f) lo hi ->
    exists blank, blank_of t (p_blank params) = Some blank /\
    forall k i, (0 <= k < mc_lines m)%Z -> (0 <= i < mc_samples m)%Z ->
    exists v, d (element m (Z.of_nat j) k i) = Some (existT _ t v) /\
      ((exists q x, plotted (mc_samples m) (c_calls c) k i q /\ composes X a srcs q x /\ within lo hi x /\ MakeMap_Spec.holds t v x) \/
       (v = blank /\ forall q x, plotted (mc_samples m) (c_calls c) k i q -> composes X a srcs q x -> ~ within lo hi x)).
Proof.
  intros fine R Fs C E J Sf Ne srcs So.
  destruct (elements X fuel status left_over removable m c w w' r fine R Fs C E)
    as (params & t & axes & cards & d & rest & o & Pp & Pt & Pf & Pc & El).
  destruct (El j f J) as (image & ex & before & after & Mk & _ & Cells). clear El.
  unfold make_of in Mk. rewrite Sf in Mk. apply bind_ok in Mk. destruct Mk as (photos & Mp & Mk).
  apply bind_ok in Mk. destruct Mk as (ex' & Ml & Eq). injection Eq as <- <-.
  apply mosaic_limits in Ml; [|destruct l; [congruence|discriminate]|intros g G; apply in_map_iff in G; destruct G as (ph & <- & _); reflexivity].
  subst ex'. exists params, t, axes, cards, d, rest, o. repeat (split; [assumption|]). intros lo hi PL.
  assert (So' : Forall (fun ph => sound (photo_of X ph ex_empty)) l) by (exact (proj1 (Forall_map _ _ _) So)).
  assert (Mk : Forall2 (fun src o => exists p f', o = Some p /\ Input_Model.photo_make (A := ar_double) (not_a_number : ar_double) src = Ok (Some p, f')) srcs photos).
  { pose proof (photos_made X l photos Mp So') as F2. unfold srcs. clear - F2. induction F2; constructor; assumption. }
  assert (An' : forall q x, mosaic_read (A := ar_double) (composite X a photos q) zero_datum = Ok (true, x) <-> composes X a srcs q x)
    by (intros q x; exact (composite_composes X a srcs photos q x Mk So)).
  destruct (Cells lo hi PL) as (blank & Bl & Cells'). exists blank. split; [exact Bl|]. intros k i Hk Hi.
  destruct (Cells' k i Hk Hi) as (v & Dv & Sh). exists v. split; [exact Dv|]. cbn [si_read] in Sh. destruct Sh as [(q & x & I1 & Rq & W & Hv)|[-> Sh]].
  - left. exists q, x. split; [exact I1|]. split; [apply An'; exact Rq|]. auto.
  - right. split; [reflexivity|]. intros q x I1 Pq W. destruct (Sh q I1) as (ok & y & Rq & No). apply An' in Pq. rewrite Pq in Rq.
    injection Rq as <- <-. destruct No; [discriminate|contradiction].
Qed.
