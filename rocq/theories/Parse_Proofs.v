(** Proofs about the semantic actions (C66, C67, C68, C93). *)
From Coq Require Import List ZArith Bool String Lia.
From Flocq Require Import Core BinarySingleNaN.
From Verif Require Import Base Flt Num Spheroid_Model Extrema_Model Ortho_Model Params_Model Entry_Model Parse_Model Parse_Spec.
From Verif Require Command_Model.
Import ListNotations.
Open Scope Z_scope.

(** ** Outcomes of actions *)

Definition fails {A} (o : outcome (option A)) : Prop := o = Ok None \/ exists e, o = Throw e.

(** The action yields the value and a state as described, or it fails. *)
Definition agrees {A B} (o : outcome (option (A * globals))) (r : option B) (R : A -> B -> globals -> Prop) : Prop :=
  match r with
  | Some b => exists a g', o = Ok (Some (a, g')) /\ R a b g'
  | None => fails o
  end.

Lemma agrees_bind {A B A' B'} (m : act A) (f : A -> act B) g (r : option A') (k : A' -> option B') R Q :
  agrees (m g) r R ->
  (forall a b g', r = Some b -> R a b g' -> agrees (f a g') (k b) Q) ->
  agrees (andthen m f g) (obind r k) Q.
Proof.
  unfold agrees at 1, andthen. destruct r as [b |]; cbn.
  - intros (a & g' & -> & H) K. apply K; auto.
  - intros [-> | [e ->]] _; [left | right; exists e]; reflexivity.
Qed.

(** An action that certainly yields a state. *)
Lemma agrees_step {A B B'} (m : act A) (f : A -> act B) g a g' (r : option B') Q :
  m g = Ok (Some (a, g')) -> agrees (f a g') r Q -> agrees (andthen m f g) r Q.
Proof. unfold andthen. intros ->. exact (fun H => H). Qed.

Lemma agrees_weaken {A B} (o : outcome (option (A * globals))) (r : option B) (R Q : A -> B -> globals -> Prop) :
  agrees o r R -> (forall a b g', r = Some b -> R a b g' -> Q a b g') -> agrees o r Q.
Proof.
  destruct r as [b |]; cbn; [| auto].
  intros (a & g' & E & H) K. exists a, g'. auto.
Qed.

Lemma agrees_map {A B B'} (o : outcome (option (A * globals))) (r : option B) (f : B -> B')
      (R : A -> B -> globals -> Prop) (Q : A -> B' -> globals -> Prop) :
  agrees o r R -> (forall a b g', r = Some b -> R a b g' -> Q a (f b) g') -> agrees o (option_map f r) Q.
Proof.
  destruct r as [b |]; cbn; [| auto].
  intros (a & g' & E & H) K. exists a, g'. auto.
Qed.

Lemma agrees_ret {A B} (a : A) (b : B) g (Q : A -> B -> globals -> Prop) :
  Q a b g -> agrees (ret a g) (Some b) Q.
Proof. intros H. exists a, g. split; [reflexivity | exact H]. Qed.

Lemma agrees_update {B} f g (b : B) (Q : unit -> B -> globals -> Prop) :
  Q tt b (f g) -> agrees (update f g) (Some b) Q.
Proof. intros H. exists tt, (f g). split; [reflexivity | exact H]. Qed.

Lemma agrees_parsed {A} (p : parsed A) g :
  agrees (of_parsed p g) (kept p) (fun a b g' => a = b /\ g' = g).
Proof.
  destruct p as [a | | e]; cbn.
  - exists a, g. auto.
  - left. reflexivity.
  - right. exists e. reflexivity.
Qed.

Lemma agrees_outcome {A} (o : outcome A) g :
  (forall u, o <> UB u) -> agrees (of_outcome o g) (done o) (fun a b g' => a = b /\ g' = g).
Proof.
  destruct o as [a | e | u]; cbn; intros H.
  - exists a, g. auto.
  - right. exists e. reflexivity.
  - exfalso. apply (H u). reflexivity.
Qed.

Lemma Obind_assoc {A B C} (x : option A) (f : A -> option B) (k : B -> option C) :
  obind x (fun a => obind (f a) k) = obind (obind x f) k.
Proof. destruct x; reflexivity. Qed.

Definition guard (b : bool) : option unit := if b then Some tt else None.

Lemma agrees_may_throw e g :
  agrees (may_throw e g) (guard (nothing_thrown e)) (fun _ _ g' => g' = g).
Proof.
  destruct e as [e |]; cbn.
  - right. exists e. reflexivity.
  - exists tt, g. auto.
Qed.

(** ** States *)

Definition set_vals (v : var -> double) (g : globals) : globals :=
  Globals (g_filename g) (g_body g) (g_params g) (g_factory g) (g_samples g) (g_lines g) (g_create_grid g)
    (g_lat_interval g) (g_lon_interval g) (g_photo_factory g) (g_photo_factories g) (g_averaging g)
    (g_photo_parameters g) (g_view g) (g_image_factory g) (g_image_factories g) (g_north_pole g) (g_num_planes g)
    (g_expected_plane g) (g_minimum g) (g_maximum g) v (g_graphic_lat g) (g_ortho_center g) (g_pp g) (g_commands g).

Definition put (v : var -> double) (k : var) (x : double) : var -> double := fun j => if var_eqb j k then x else v j.

Lemma var_eqb_eq a b : var_eqb a b = true <-> a = b.
Proof. destruct a, b; cbn; split; intros; try reflexivity; try discriminate. Qed.

(** The temporary values are such that no entry notices them. *)
Record clean (v : var -> double) : Prop := Clean {
  c_center : two_numbers (v sample_center) (v line_center) = false;
  c_lat_lon : two_numbers (v lat_at_center) (v lon_at_center) = false;
  c_km : v km_per_pixel_val = double_of_Z (-1);
  c_arcsec : positive (v arcsec_per_pix_val) = false;
  c_focal : positive (v focal_length_val) = false;
  c_scale : positive (v pixel_scale_val) = false;
  c_max_lat : v max_lat = nan;
  c_lo_lat : v lo_lat = double_of_Z (-90);
  c_hi_lat : v hi_lat = double_of_Z 90;
  c_lo_lon : v lo_lon = double_of_Z 0;
  c_hi_lon : v hi_lon = double_of_Z 360;
  c_sub_lat : v sub_observ_lat = double_of_Z 0;
  c_sub_lon : v sub_observ_lon = double_of_Z 0;
  c_angle : v position_angle_val = double_of_Z 0 }.

Lemma clean_new : clean (g_val globals_new).
Proof. constructor; reflexivity. Qed.

(** What planes leave alone. *)
Definition stable (g : globals) :=
  (g_filename g, g_body g, g_params g, g_factory g, g_samples g, g_lines g, g_create_grid g, g_lat_interval g,
   g_lon_interval g, g_averaging g, g_north_pole g, g_num_planes g, g_ortho_center g, g_pp g, g_commands g).

Section Proofs.
Context (fmod : double -> double -> double) (degree : double) (centric : body -> double -> double) (au : double).
Context (construct : projection -> option exn) (opens : string -> option exn)
  (refuses : body -> list vcall -> vcall -> option exn).

Local Notation a_latitude := (a_latitude degree centric).
Local Notation a_longitude := (a_longitude fmod).
Local Notation a_point := (a_point fmod degree centric).
Local Notation a_angle := (a_angle fmod).
Local Notation a_view := (a_view refuses).
Local Notation a_centers := (a_centers fmod degree centric).
Local Notation a_image := (a_image fmod degree centric au opens refuses).
Local Notation lat_of := (lat_of degree centric).
Local Notation lon_of := (lon_of fmod).
Local Notation point_of := (point_of fmod degree centric).
Local Notation angle_of := (angle_of fmod).
Local Notation center_calls := (center_calls fmod degree centric).
Local Notation allowed := (allowed refuses).
Local Notation image_of := (image_of fmod degree centric au opens refuses).

(** ** Values *)

Lemma latitude_agrees b l g : g_body g = Some b ->
  agrees (a_latitude l g) (lat_of b l) (fun x y g' => x = y /\ g' = g).
Proof.
  intros B. unfold Parse_Model.a_latitude, Parse_Spec.lat_of. destruct (le_kind l).
  - apply agrees_parsed.
  - eapply agrees_step; [unfold deref; rewrite B; reflexivity |]. apply agrees_parsed.
Qed.

Lemma longitude_agrees b l g : g_body g = Some b ->
  agrees (a_longitude l g) (lon_of b l) (fun x y g' => x = y /\ g' = g).
Proof.
  intros B. unfold Parse_Model.a_longitude, Parse_Spec.lon_of. destruct (lo_suffix l).
  - apply agrees_parsed.
  - eapply agrees_step; [unfold deref; rewrite B; reflexivity |]. apply agrees_parsed.
  - eapply agrees_step; [unfold deref; rewrite B; reflexivity |]. apply agrees_parsed.
Qed.

Lemma point_agrees b p g : g_body g = Some b ->
  agrees (a_point p g) (point_of b p) (fun x y g' => x = y /\ g' = g).
Proof.
  intros B. destruct p as [a o | o a]; cbn [Parse_Model.a_point Parse_Spec.point_of].
  - eapply agrees_bind; [apply latitude_agrees; exact B |]. intros x y g1 _ [-> ->].
    eapply agrees_bind; [apply longitude_agrees; exact B |]. intros x' y' g1 _ [-> ->].
    apply agrees_ret. auto.
  - assert (E : agrees (andthen (a_longitude o) (fun y => andthen (a_latitude a) (fun x => ret (x, y))) g)
              (obind (lon_of b o) (fun y => obind (lat_of b a) (fun x => Some (x, y)))) (fun x y g' => x = y /\ g' = g)).
    { eapply agrees_bind; [apply longitude_agrees; exact B |]. intros x y g1 _ [-> ->].
      eapply agrees_bind; [apply latitude_agrees; exact B |]. intros x' y' g1 _ [-> ->].
      apply agrees_ret. auto. }
    destruct (lat_of b a), (lon_of b o); exact E.
Qed.

Lemma angle_agrees a g : agrees (a_angle a g) (angle_of a) (fun x y g' => x = y /\ g' = g).
Proof. apply agrees_parsed. Qed.

(** ** Images *)

(** A state while an image is read. *)
Definition img (g : globals) (v : var -> double) (pf : photo_factory) (pr : photo_parameters) (vw : view) : globals :=
  set_photo_factory (Some pf) (set_view (Some vw) (set_photo_parameters (Some pr) (set_vals v g))).

Lemma view_agrees c g v pf pr b calls :
  agrees (a_view c (img g v pf pr (View b calls))) (guard (allowed b calls [c]))
    (fun _ _ g' => g' = img g v pf pr (View b (calls ++ [c]))).
Proof.
  unfold Parse_Model.a_view. eapply agrees_step; [reflexivity |]. cbn [vw_body vw_calls].
  cbn [Parse_Spec.allowed]. destruct (refuses b calls c) as [e |]; cbn.
  - right. exists e. reflexivity.
  - eexists tt, _. split; reflexivity.
Qed.

Lemma allowed_app b l1 l2 before :
  allowed b before (l1 ++ l2) = allowed b before l1 && allowed b (before ++ l1) l2.
Proof.
  revert before. induction l1 as [| c l1 IH]; intros before; cbn.
  - rewrite app_nil_r. reflexivity.
  - destruct (refuses b before c); [reflexivity |]. rewrite IH, <- app_assoc. reflexivity.
Qed.

Definition nibble_given (e : side * number) : option (side * Z) :=
  do n <- kept (nibble_size (snd e)); Some (fst e, n).

Lemma nibble_agrees e g v pf pr vw :
  agrees (a_nibble e (img g v pf pr vw)) (nibble_given e)
    (fun _ x g' => g' = img g v pf (PhotoParameters (put_side (fst x) (snd x) (pr_nibbles pr)) (pr_remove_sky pr)) vw).
Proof.
  unfold a_nibble, nibble_given. eapply agrees_bind; [apply agrees_parsed |]. intros n n' g1 _ [-> ->].
  eapply agrees_step; [reflexivity |]. cbn. eexists tt, _. split; reflexivity.
Qed.

Lemma nibbles_agree l g v pf pr vw :
  agrees (each a_nibble l (img g v pf pr vw)) (all_some nibble_given l)
    (fun _ x g' => g' = img g v pf
       (PhotoParameters (fold_left (fun n e => put_side (fst e) (snd e) n) x (pr_nibbles pr)) (pr_remove_sky pr)) vw).
Proof.
  revert pr. induction l as [| e l IH]; intros pr; cbn [each all_some].
  - apply agrees_ret. destruct pr. reflexivity.
  - eapply agrees_bind; [apply nibble_agrees |]. intros ? x g1 _ ->.
    specialize (IH (PhotoParameters (put_side (fst x) (snd x) (pr_nibbles pr)) (pr_remove_sky pr))).
    assert (E : agrees (each a_nibble l (img g v pf
       (PhotoParameters (put_side (fst x) (snd x) (pr_nibbles pr)) (pr_remove_sky pr)) vw))
       (option_map (cons x) (all_some nibble_given l))
       (fun _ x g' => g' = img g v pf
       (PhotoParameters (fold_left (fun n e => put_side (fst e) (snd e) n) x (pr_nibbles pr)) (pr_remove_sky pr)) vw)).
    { eapply agrees_map; [exact IH |]. cbn. auto. }
    destruct (all_some nibble_given l); exact E.
Qed.

Definition one_side (s : side) (d : Z) (l : list (side * Z)) : Z :=
  fold_left (fun v e => if covers (fst e) s then snd e else v) l d.

Lemma one_side_last s d l : one_side s d l = last_given s d l.
Proof.
  unfold one_side, last_given. induction l as [| e l IH] using rev_ind; [reflexivity |].
  rewrite fold_left_app, rev_app_distr. cbn. destruct (covers (fst e) s); [reflexivity | exact IH].
Qed.

Lemma fold_nibbles l b :
  fold_left (fun n e => put_side (fst e) (snd e) n) l b
  = Nibbles (last_given left_side (nb_left b) l) (last_given right_side (nb_right b) l)
      (last_given top_side (nb_top b) l) (last_given bottom_side (nb_bottom b) l).
Proof.
  rewrite <- !one_side_last. revert b. induction l as [| [s n] l IH]; intros b.
  - destruct b. reflexivity.
  - cbn [fold_left one_side]. rewrite IH. unfold one_side. destruct s; reflexivity.
Qed.

Lemma nibbles_of_given d l :
  nibbles_of d l = option_map (fun x => fold_left (fun n e => put_side (fst e) (snd e) n) x d) (all_some nibble_given l).
Proof.
  unfold nibbles_of. fold nibble_given. destruct (all_some nibble_given l) as [x |]; cbn; [| reflexivity].
  rewrite fold_nibbles. reflexivity.
Qed.

(** Calls that follow from the temporary values. *)
Definition center_pending (v : var -> double) : list vcall :=
  (if two_numbers (v sample_center) (v line_center) then [v_body_center (v sample_center) (v line_center)] else [])
  ++ (if two_numbers (v lat_at_center) (v lon_at_center) then [v_lat_lon_center (v lat_at_center) (v lon_at_center)] else []).
Definition scale_pending (v : var -> double) : list vcall :=
  (if positive (v km_per_pixel_val) then [v_km_per_pixel (v km_per_pixel_val)] else [])
  ++ (if positive (v arcsec_per_pix_val) then [v_arcsec_per_pixel (v arcsec_per_pix_val)] else [])
  ++ (if positive (v focal_length_val) then [v_focal_length (v focal_length_val)] else [])
  ++ (if positive (v pixel_scale_val) then [v_scale (v pixel_scale_val)] else []).

Definition is_center (k : var) : bool :=
  match k with sample_center | line_center | lat_at_center | lon_at_center => true | _ => false end.
Definition is_scale (k : var) : bool :=
  match k with km_per_pixel_val | arcsec_per_pix_val | focal_length_val | pixel_scale_val => true | _ => false end.

Lemma set_val_img k x g v pf pr vw : set_val k x (img g v pf pr vw) = img g (put v k x) pf pr vw.
Proof. reflexivity. Qed.

Lemma centers_agree b c g v pf pr vw : g_body g = Some b -> clean v ->
  agrees (a_centers c (img g v pf pr vw)) (center_calls b c)
    (fun _ calls g' => exists v', g' = img g v' pf pr vw /\ center_pending v' = calls /\
                                 forall k, is_center k = false -> v' k = v k).
Proof.
  intros B C. destruct c as [s l | l s | p]; cbn [Parse_Model.a_centers Parse_Spec.center_calls].
  1, 2: eapply agrees_step; [reflexivity |]; apply agrees_update; rewrite !set_val_img; eexists; (split; [reflexivity |]);
        (split; [unfold center_pending; cbn; rewrite (c_lat_lon v C), app_nil_r; reflexivity |]);
        intros k Hk; destruct k; try discriminate; reflexivity.
  eapply agrees_bind; [apply point_agrees; exact B |]. intros x y g1 _ [-> ->].
  eapply agrees_step; [reflexivity |]. apply agrees_update. rewrite !set_val_img. eexists. split; [reflexivity |].
  split.
  - unfold center_pending. cbn. rewrite (c_center v C). reflexivity.
  - intros k Hk. destruct k; try discriminate; reflexivity.
Qed.

Lemma minus_one_not_positive : positive (double_of_Z (-1)) = false.
Proof. reflexivity. Qed.

Lemma scale_agrees s g v pf pr vw :
  v km_per_pixel_val = double_of_Z (-1) -> positive (v arcsec_per_pix_val) = false ->
  positive (v focal_length_val) = false -> positive (v pixel_scale_val) = false ->
  agrees (a_scale s (img g v pf pr vw)) (scale_calls s)
    (fun _ calls g' => exists v', g' = img g v' pf pr vw /\ scale_pending v' = calls /\
       (positive (v' km_per_pixel_val) = true \/ v' km_per_pixel_val = double_of_Z (-1)) /\
       forall k, is_scale k = false -> v' k = v k).
Proof.
  intros Hk Ha Hf Hs. destruct s as [x | x | f s | s f]; cbn [a_scale scale_calls].
  - unfold a_km_per_pixel. destruct (positive x) eqn:P; [| left; reflexivity].
    apply agrees_update. rewrite set_val_img. eexists. split; [reflexivity |]. split; [| split].
    + unfold scale_pending. cbn. rewrite P, Ha, Hf, Hs. reflexivity.
    + left. exact P.
    + intros k Kk. destruct k; try discriminate; reflexivity.
  - destruct (positive x) eqn:P; [| left; reflexivity].
    apply agrees_update. rewrite set_val_img. eexists. split; [reflexivity |]. split; [| split].
    + unfold scale_pending. cbn. rewrite P, Hk, Hf, Hs. reflexivity.
    + right. exact Hk.
    + intros k Kk. destruct k; try discriminate; reflexivity.
  - eapply agrees_step; [reflexivity |]. apply agrees_update. rewrite !set_val_img. eexists. split; [reflexivity |].
    split; [| split].
    + unfold scale_pending. cbn. rewrite Hk, Ha. reflexivity.
    + right. exact Hk.
    + intros k Kk. destruct k; try discriminate; reflexivity.
  - eapply agrees_step; [reflexivity |]. apply agrees_update. rewrite !set_val_img. eexists. split; [reflexivity |].
    split; [| split].
    + unfold scale_pending. cbn. rewrite Hk, Ha. reflexivity.
    + right. exact Hk.
    + intros k Kk. destruct k; try discriminate; reflexivity.
Qed.

Definition used (v : var -> double) (k : var) : var -> double := if positive (v k) then put v k (double_of_Z (-1)) else v.

Lemma use_positive_agrees k call g v pf pr b calls :
  agrees (a_use_positive refuses k call (img g v pf pr (View b calls)))
    (guard (allowed b calls (if positive (v k) then [call (v k)] else [])))
    (fun _ _ g' => g' = img g (used v k) pf pr (View b (calls ++ if positive (v k) then [call (v k)] else []))).
Proof.
  unfold a_use_positive. eapply agrees_step; [reflexivity |]. cbn [img set_photo_factory set_view set_photo_parameters set_vals g_val].
  unfold used. destruct (positive (v k)).
  - assert (E : agrees (andthen (a_view (call (v k))) (fun _ => update (set_val k (double_of_Z (-1)))) (img g v pf pr (View b calls)))
              (obind (guard (allowed b calls [call (v k)])) (fun _ => Some tt))
              (fun _ _ g' => g' = img g (put v k (double_of_Z (-1))) pf pr (View b (calls ++ [call (v k)])))).
    { eapply agrees_bind; [apply view_agrees |]. intros ? ? g1 _ ->. apply agrees_update. reflexivity. }
    destruct (guard (allowed b calls [call (v k)])) as [[] |] eqn:G; rewrite ?G; exact E.
  - apply agrees_ret. rewrite app_nil_r. reflexivity.
Qed.

Lemma used_other v k j : var_eqb j k = false -> used v k j = v j.
Proof. intros H. unfold used. destruct (positive (v k)); [| reflexivity]. unfold put. rewrite H. reflexivity. Qed.

Definition cleared (v : var -> double) (k j : var) : var -> double :=
  if two_numbers (v k) (v j) then put (put v k nan) j nan else v.

Lemma use_numbers_agrees k j call g v pf pr b calls :
  agrees (a_use_numbers refuses k j call (img g v pf pr (View b calls)))
    (guard (allowed b calls (if two_numbers (v k) (v j) then [call (v k) (v j)] else [])))
    (fun _ _ g' => g' = img g (cleared v k j) pf pr (View b (calls ++ if two_numbers (v k) (v j) then [call (v k) (v j)] else []))).
Proof.
  unfold a_use_numbers. eapply agrees_step; [reflexivity |]. eapply agrees_step; [reflexivity |].
  cbn [img set_photo_factory set_view set_photo_parameters set_vals g_val].
  unfold cleared. change (negb (is_nan (v k)) && negb (is_nan (v j))) with (two_numbers (v k) (v j)).
  destruct (two_numbers (v k) (v j)).
  - assert (E : agrees (andthen (a_view (call (v k) (v j))) (fun _ => andthen (update (set_val k nan)) (fun _ => update (set_val j nan)))
                 (img g v pf pr (View b calls)))
              (obind (guard (allowed b calls [call (v k) (v j)])) (fun _ => Some tt))
              (fun _ _ g' => g' = img g (put (put v k nan) j nan) pf pr (View b (calls ++ [call (v k) (v j)])))).
    { eapply agrees_bind; [apply view_agrees |]. intros ? ? g1 _ ->. eapply agrees_step; [reflexivity |].
      apply agrees_update. reflexivity. }
    destruct (guard (allowed b calls [call (v k) (v j)])) as [[] |] eqn:G; rewrite ?G; exact E.
  - apply agrees_ret. rewrite app_nil_r. reflexivity.
Qed.

Lemma use_positive_at x k call g v pf pr b calls : v k = x ->
  agrees (a_use_positive refuses k call (img g v pf pr (View b calls)))
    (guard (allowed b calls (if positive x then [call x] else [])))
    (fun _ _ g' => g' = img g (used v k) pf pr (View b (calls ++ if positive x then [call x] else []))).
Proof. intros <-. apply use_positive_agrees. Qed.

Lemma use_numbers_at x y k j call g v pf pr b calls : v k = x -> v j = y ->
  agrees (a_use_numbers refuses k j call (img g v pf pr (View b calls)))
    (guard (allowed b calls (if two_numbers x y then [call x y] else [])))
    (fun _ _ g' => g' = img g (cleared v k j) pf pr (View b (calls ++ if two_numbers x y then [call x y] else []))).
Proof. intros <- <-. apply use_numbers_agrees. Qed.

Lemma cleared_other v k j x : var_eqb x k = false -> var_eqb x j = false -> cleared v k j x = v x.
Proof. intros H K. unfold cleared, put. destruct (two_numbers (v k) (v j)); [rewrite H, K |]; reflexivity. Qed.

Lemma used_not_positive v k : positive (used v k k) = false.
Proof.
  unfold used. destruct (positive (v k)) eqn:P; [| exact P]. unfold put.
  rewrite (proj2 (var_eqb_eq k k) eq_refl). reflexivity.
Qed.

Lemma cleared_false v k j : two_numbers (cleared v k j k) (cleared v k j j) = false.
Proof.
  unfold cleared. destruct (two_numbers (v k) (v j)) eqn:T; [| exact T]. unfold put.
  rewrite !(proj2 (var_eqb_eq _ _) eq_refl). unfold two_numbers. apply andb_false_r.
Qed.

Lemma photo_step f g v pf pr vw : a_photo f (img g v pf pr vw) = Ok (Some (tt, img g v (f pf) pr vw)).
Proof. reflexivity. Qed.

Definition with_inversion (o : option inversion) (p : photo_factory) : photo_factory :=
  match o with
  | None => p
  | Some i => PhotoFactory (ph_file p) (ph_flat_field p) (ph_geometric_correction p) (ph_interpolate p)
      (match i with horizontal => false | _ => true end) (match i with vertical => false | _ => true end)
      (ph_config p) (ph_geometry p)
  end.

Lemma inversion_step o g v pf pr vw :
  optionally o a_inversion (img g v pf pr vw) = Ok (Some (tt, img g v (with_inversion o pf) pr vw)).
Proof. destruct o as [[] |]; reflexivity. Qed.

(** The image in the order of the actions. *)
Definition ordered_image (d : defaults) (b : body) (i : image_entry) : option photo_factory :=
  do _ <- guard (nothing_thrown (opens (ie_file i)));
  do x <- all_some nibble_given (ie_nibbling i);
  do c <- center_calls b (ie_centers i);
  do _ <- guard (allowed b [] (match ie_axis i with
                               | Some (sample_line_oa s l) | Some (line_sample_oa l s) => [v_optical_axis s l]
                               | None => [] end));
  do _ <- guard (allowed b (match ie_axis i with
                               | Some (sample_line_oa s l) | Some (line_sample_oa l s) => [v_optical_axis s l]
                               | None => [] end)
                   match ie_emi_ang_limit i with Some x => [v_emi_ang_limit x] | None => [] end);
  do _ <- guard (allowed b (match ie_axis i with
                               | Some (sample_line_oa s l) | Some (line_sample_oa l s) => [v_optical_axis s l]
                               | None => [] end ++ match ie_emi_ang_limit i with Some x => [v_emi_ang_limit x] | None => [] end)
                   match ie_terminator i with Some x => [v_use_terminator x] | None => [] end);
  do o <- point_of b (ie_sub_observ i);
  do a <- angle_of (ie_position_angle i);
  do s <- point_of b (ie_sub_solar i);
  do k <- scale_calls (ie_scale i);
  let calls0 := option_calls i in
  let calls1 := calls0 ++ [v_sub_observ (fst o) (snd o); v_position_angle a; v_sub_solar (fst s) (snd s);
                           v_range (range_km au (ie_range i))] in
  do _ <- guard (allowed b calls0 [v_sub_observ (fst o) (snd o); v_position_angle a; v_sub_solar (fst s) (snd s);
                           v_range (range_km au (ie_range i))]);
  do _ <- guard (allowed b calls1 k);
  do _ <- guard (allowed b (calls1 ++ k) c);
  Some (PhotoFactory (ie_file i) (or_else (ie_flat_field i) EmptyString) (or_else (ie_geom_correct i) false)
            (or_else (ie_interpolate i) false)
            (match ie_inversion i with Some vertical | Some both_ways => true | _ => false end)
            (match ie_inversion i with Some horizontal | Some both_ways => true | _ => false end)
            (Some (PhotoParameters (fold_left (fun n e => put_side (fst e) (snd e) n) x (d_nibbles d)) (or_else (ie_remove_sky i) false)))
            (Some (View b ((calls1 ++ k) ++ c)))).

Lemma ordered_image_same d b i : ordered_image d b i = image_of d b i.
Proof.
  unfold ordered_image, Parse_Spec.image_of. rewrite nibbles_of_given.
  destruct (nothing_thrown (opens (ie_file i))) eqn:O; cbn [guard obind andb].
  2:{ destruct (option_map _ _); cbn [obind]; [| reflexivity]. destruct (center_calls b (ie_centers i)); cbn [obind]; [| reflexivity].
      destruct (point_of b (ie_sub_observ i)); cbn [obind]; [| reflexivity]. destruct (angle_of (ie_position_angle i)); cbn [obind]; [| reflexivity].
      destruct (point_of b (ie_sub_solar i)); cbn [obind]; [| reflexivity]. destruct (scale_calls (ie_scale i)); reflexivity. }
  destruct (all_some nibble_given (ie_nibbling i)) as [x |]; cbn [obind option_map]; [| reflexivity].
  destruct (center_calls b (ie_centers i)) as [c |]; cbn [obind]; [| reflexivity].
  destruct (point_of b (ie_sub_observ i)) as [o |]; cbn [obind].
  2:{ repeat (match goal with |- context [guard ?b] => destruct (guard b); cbn [obind]; [| reflexivity] end). reflexivity. }
  destruct (angle_of (ie_position_angle i)) as [a |]; cbn [obind].
  2:{ repeat (match goal with |- context [guard ?b] => destruct (guard b); cbn [obind]; [| reflexivity] end). reflexivity. }
  destruct (point_of b (ie_sub_solar i)) as [s |]; cbn [obind].
  2:{ repeat (match goal with |- context [guard ?b] => destruct (guard b); cbn [obind]; [| reflexivity] end). reflexivity. }
  destruct (scale_calls (ie_scale i)) as [k |]; cbn [obind].
  2:{ repeat (match goal with |- context [guard ?b] => destruct (guard b); cbn [obind]; [| reflexivity] end). reflexivity. }
  rewrite !(app_assoc _ _ c), !(app_assoc _ _ k), !(allowed_app b _ c), !(allowed_app b _ k).
  rewrite (allowed_app b (option_calls i)).
  replace (allowed b [] (option_calls i)) with
    (allowed b [] (match ie_axis i with
                               | Some (sample_line_oa s l) | Some (line_sample_oa l s) => [v_optical_axis s l]
                               | None => [] end)
     && allowed b (match ie_axis i with
                               | Some (sample_line_oa s l) | Some (line_sample_oa l s) => [v_optical_axis s l]
                               | None => [] end)
                   match ie_emi_ang_limit i with Some x => [v_emi_ang_limit x] | None => [] end
     && allowed b (match ie_axis i with
                               | Some (sample_line_oa s l) | Some (line_sample_oa l s) => [v_optical_axis s l]
                               | None => [] end ++ match ie_emi_ang_limit i with Some x => [v_emi_ang_limit x] | None => [] end)
                   match ie_terminator i with Some x => [v_use_terminator x] | None => [] end).
  2:{ unfold option_calls. rewrite app_assoc, !allowed_app. reflexivity. }
  cbn [app].
  repeat (match goal with |- context [guard ?b] => destruct b; cbn [obind guard andb]; [| reflexivity] end).
  reflexivity.
Qed.

Lemma ret_step {A} (o : option A) (f : A -> globals -> globals) (m : A -> act unit) g :
  (forall a, m a g = Ok (Some (tt, f a g))) ->
  optionally o m g = Ok (Some (tt, match o with Some a => f a g | None => g end)).
Proof. intros H. destruct o; [apply H | reflexivity]. Qed.

Lemma guard_obind {B} (c : bool) (k : unit -> option B) : obind (guard c) k = if c then k tt else None.
Proof. destruct c; reflexivity. Qed.

(** The state after an image. *)
Definition after_image (g : globals) (v : var -> double) (p : photo_factory) : globals :=
  set_photo_factory None (set_view None (set_photo_parameters None
    (set_photo_factories (g_photo_factories g ++ [p]) (set_vals v g)))).

Lemma photo_optional {A} (o : option A) (m : A -> act unit) (f : A -> photo_factory -> photo_factory) g v pf pr vw :
  (forall a, m a (img g v pf pr vw) = Ok (Some (tt, img g v (f a pf) pr vw))) ->
  optionally o m (img g v pf pr vw) = Ok (Some (tt, img g v (match o with Some a => f a pf | None => pf end) pr vw)).
Proof. intros H. destruct o; [apply H | reflexivity]. Qed.

Lemma view_optional {A} (o : option A) (call : A -> vcall) (m : A -> act unit) g v pf pr b calls :
  (forall a, m a (img g v pf pr (View b calls)) = a_view (call a) (img g v pf pr (View b calls))) ->
  agrees (optionally o m (img g v pf pr (View b calls)))
    (guard (allowed b calls match o with Some a => [call a] | None => [] end))
    (fun _ _ g' => g' = img g v pf pr (View b (calls ++ match o with Some a => [call a] | None => [] end))).
Proof.
  intros H. destruct o as [a |]; cbn [optionally].
  - rewrite H. apply view_agrees.
  - apply agrees_ret. rewrite app_nil_r. reflexivity.
Qed.

Definition axis_call (a : axis_entry) : vcall :=
  match a with sample_line_oa s l | line_sample_oa l s => v_optical_axis s l end.

Lemma guard_app {B} b before l1 l2 (k : option B) :
  obind (guard (allowed b before (l1 ++ l2))) (fun _ => k)
  = obind (guard (allowed b before l1)) (fun _ => obind (guard (allowed b (before ++ l1) l2)) (fun _ => k)).
Proof. rewrite allowed_app. destruct (allowed b before l1), (allowed b (before ++ l1) l2); reflexivity. Qed.

Lemma image_agrees b i g : g_body g = Some b -> clean (g_val g) ->
  agrees (a_image i g) (image_of (g_pp g) b i)
    (fun _ p g' => exists v, clean v /\ g' = after_image g v p).
Proof.
  intros B C. rewrite <- ordered_image_same. unfold Parse_Model.a_image, ordered_image.
  set (v0 := g_val g).
  set (pf0 := PhotoFactory (ie_file i) EmptyString false false false false None None).
  set (pr0 := PhotoParameters (d_nibbles (g_pp g)) false).
  eapply agrees_bind with (R := fun _ _ g' => g' = img g v0 pf0 pr0 (View b [])).
  { unfold a_initialize. eapply agrees_step; [reflexivity |]. eapply agrees_step; [reflexivity |].
    eapply agrees_step; [unfold deref; cbn [set_photo_parameters g_body]; rewrite B; reflexivity |].
    eapply agrees_step; [reflexivity |].
    unfold andthen, may_throw. destruct (opens (ie_file i)) as [e |]; cbn.
    - right. exists e. reflexivity.
    - eexists tt, _. split; [reflexivity |]. destruct g; reflexivity. }
  intros ? ? g1 _ ->.
  eapply agrees_bind; [apply nibbles_agree |]. intros ? x g1 _ ->. cbn [pr_nibbles pr_remove_sky pr0].
  eapply agrees_step; [apply inversion_step |].
  eapply agrees_step; [apply (photo_optional (ie_interpolate i) a_interpolate
      (fun b p => PhotoFactory (ph_file p) (ph_flat_field p) (ph_geometric_correction p) b (ph_invert_v p) (ph_invert_h p) (ph_config p) (ph_geometry p)));
      intros; reflexivity |].
  set (nb := fold_left (fun n e => put_side (fst e) (snd e) n) x (d_nibbles (g_pp g))).
  set (pf1 := match ie_interpolate i with Some _ => _ | None => _ end).
  eapply agrees_step with (a := tt) (g' := img g v0 pf1 (PhotoParameters nb (or_else (ie_remove_sky i) false)) (View b [])).
  { destruct (ie_remove_sky i); reflexivity. }
  set (pr1 := PhotoParameters nb (or_else (ie_remove_sky i) false)).
  eapply agrees_bind; [apply centers_agree; [exact B | exact C] |]. intros ? c g1 _ (v1 & -> & Hc & K1).
  replace (match ie_axis i with
           | Some (sample_line_oa s l) | Some (line_sample_oa l s) => [v_optical_axis s l]
           | None => [] end) with (match ie_axis i with Some a => [axis_call a] | None => [] end)
    by (destruct (ie_axis i) as [[] |]; reflexivity).
  eapply agrees_bind; [apply (view_optional (ie_axis i) axis_call); intros []; reflexivity |]. intros ? ? g1 _ ->.
  eapply agrees_step; [apply (photo_optional (ie_flat_field i) a_flat_field
      (fun s p => PhotoFactory (ph_file p) s (ph_geometric_correction p) (ph_interpolate p) (ph_invert_v p) (ph_invert_h p) (ph_config p) (ph_geometry p)));
      intros; reflexivity |].
  eapply agrees_step; [apply (photo_optional (ie_geom_correct i) a_geom_correct
      (fun b p => PhotoFactory (ph_file p) (ph_flat_field p) b (ph_interpolate p) (ph_invert_v p) (ph_invert_h p) (ph_config p) (ph_geometry p)));
      intros; reflexivity |].
  set (pf2 := match ie_geom_correct i with Some _ => _ | None => _ end).
  eapply agrees_bind; [apply (view_optional (ie_emi_ang_limit i) v_emi_ang_limit); reflexivity |]. intros ? ? g1 _ ->.
  eapply agrees_bind; [apply (view_optional (ie_terminator i) v_use_terminator); reflexivity |]. intros ? ? g1 _ ->.
  cbn [app]. rewrite <- app_assoc.
  replace (_ ++ _ ++ _) with (option_calls i)
    by (unfold option_calls; destruct (ie_axis i) as [[] |]; reflexivity).
  eapply agrees_bind; [apply point_agrees; exact B |]. intros ob ob' g1 _ [-> ->].
  eapply agrees_bind; [apply angle_agrees |]. intros an an' g1 _ [-> ->].
  eapply agrees_bind; [apply point_agrees; exact B |]. intros s s' g1 _ [-> ->].
  eapply agrees_bind.
  { apply scale_agrees; rewrite K1 by reflexivity; subst v0; apply C. }
  intros ? k g1 _ (v2 & -> & Hk & Km & K2).
  match goal with |- context [guard (allowed b (option_calls i) [?c1; ?c2; ?c3; ?c4])] =>
    change [c1; c2; c3; c4] with ([c1] ++ [c2] ++ [c3] ++ [c4]);
    set (s1 := [c1]); set (s2 := [c2]); set (s3 := [c3]); set (s4 := [c4]) end.
  rewrite (guard_app b (option_calls i) s1), (guard_app b _ s2), (guard_app b _ s3).
  eapply agrees_bind; [apply view_agrees |]. intros ? ? g1 _ ->.
  eapply agrees_bind; [apply view_agrees |]. intros ? ? g1 _ ->.
  eapply agrees_bind; [apply view_agrees |]. intros ? ? g1 _ ->.
  eapply agrees_bind; [apply view_agrees |]. intros ? ? g1 _ ->.
  fold s1 s2 s3. change (range_km au (ie_range i)) with (a_range au (ie_range i)) in s4. fold s4.
  set (calls1 := (((option_calls i ++ s1) ++ s2) ++ s3) ++ s4).
  replace (option_calls i ++ s1 ++ s2 ++ s3 ++ s4) with calls1 by (unfold calls1; rewrite <- !app_assoc; reflexivity).
  replace (obind (guard (allowed b calls1 k)) _) with
    (do _ <- guard (allowed b calls1 (scale_pending v2));
     do _ <- guard (allowed b (calls1 ++ k) (center_pending v2));
     Some (PhotoFactory (ie_file i) (or_else (ie_flat_field i) EmptyString) (or_else (ie_geom_correct i) false)
            (or_else (ie_interpolate i) false)
            (match ie_inversion i with Some vertical | Some both_ways => true | _ => false end)
            (match ie_inversion i with Some horizontal | Some both_ways => true | _ => false end)
            (Some pr1) (Some (View b ((calls1 ++ k) ++ c))))).
  2:{ rewrite Hk. replace (center_pending v2) with c; [reflexivity |].
      rewrite <- Hc. unfold center_pending. rewrite !K2 by reflexivity. reflexivity. }
  unfold scale_pending. rewrite !guard_app.
  eapply agrees_bind; [apply use_positive_at; reflexivity |]. intros ? ? g1 _ ->.
  eapply agrees_bind; [apply use_positive_at; rewrite !used_other by reflexivity; reflexivity |]. intros ? ? g1 _ ->.
  eapply agrees_bind; [apply use_positive_at; rewrite !used_other by reflexivity; reflexivity |]. intros ? ? g1 _ ->.
  eapply agrees_bind; [apply use_positive_at; rewrite !used_other by reflexivity; reflexivity |]. intros ? ? g1 _ ->.
  match goal with |- context [img g ?v pf2 pr1 (View b ?l)] => set (v3 := v);
    replace l with (calls1 ++ k) by (rewrite <- Hk; unfold scale_pending; rewrite <- !app_assoc; reflexivity) end.
  unfold center_pending. rewrite guard_app.
  assert (E1 : v3 sample_center = v2 sample_center) by (unfold v3; rewrite !used_other by reflexivity; reflexivity).
  assert (E2 : v3 line_center = v2 line_center) by (unfold v3; rewrite !used_other by reflexivity; reflexivity).
  assert (E3 : v3 lat_at_center = v2 lat_at_center) by (unfold v3; rewrite !used_other by reflexivity; reflexivity).
  assert (E4 : v3 lon_at_center = v2 lon_at_center) by (unfold v3; rewrite !used_other by reflexivity; reflexivity).
  eapply agrees_bind; [apply use_numbers_at; [exact E1 | exact E2] |]. intros ? ? g1 _ ->.
  eapply agrees_bind; [apply use_numbers_at; rewrite cleared_other by reflexivity; [exact E3 | exact E4] |]. intros ? ? g1 _ ->.
  match goal with |- context [img g ?v pf2 pr1 (View b ?l)] => set (v4 := v);
    replace l with ((calls1 ++ k) ++ c) end.
  2:{ rewrite <- Hc. unfold center_pending. rewrite !K2 by reflexivity. rewrite <- !app_assoc. reflexivity. }
  assert (F : img g v4 pf2 pr1 (View b ((calls1 ++ k) ++ c)) =
              img g v4 (PhotoFactory (ie_file i) (or_else (ie_flat_field i) EmptyString) (or_else (ie_geom_correct i) false)
            (or_else (ie_interpolate i) false)
            (match ie_inversion i with Some vertical | Some both_ways => true | _ => false end)
            (match ie_inversion i with Some horizontal | Some both_ways => true | _ => false end) None None)
            pr1 (View b ((calls1 ++ k) ++ c))).
  { f_equal. unfold pf2, pf1, pf0.
    destruct (ie_geom_correct i), (ie_flat_field i), (ie_interpolate i), (ie_inversion i) as [[] |]; reflexivity. }
  rewrite F. clear F.
  eexists tt, _. split; [reflexivity |]. exists v4. split; [| reflexivity].
  assert (Kc : forall j, is_center j = false -> v4 j = v3 j).
  { intros j Hj. unfold v4. rewrite !cleared_other by (destruct j; try discriminate; reflexivity). reflexivity. }
  assert (Ks : forall j, is_scale j = false -> v3 j = v2 j).
  { intros j Hj. unfold v3. rewrite !used_other by (destruct j; try discriminate; reflexivity). reflexivity. }
  constructor; try (rewrite Kc, Ks, K2, K1 by reflexivity; apply C).
  - unfold v4. rewrite !cleared_other with (j := lon_at_center) by reflexivity. apply cleared_false.
  - unfold v4. apply cleared_false.
  - rewrite Kc by reflexivity. unfold v3. rewrite !used_other by reflexivity. unfold used.
    destruct Km as [P | P]; [rewrite P; reflexivity | rewrite P; exact P].
  - rewrite Kc by reflexivity. unfold v3. rewrite 2!used_other by reflexivity. apply used_not_positive.
  - rewrite Kc by reflexivity. unfold v3. rewrite 1!used_other by reflexivity. apply used_not_positive.
  - rewrite Kc by reflexivity. unfold v3. apply used_not_positive.
Qed.
(** ** Planes *)
Local Notation a_plane_type := (a_plane_type fmod degree centric au opens refuses).
Local Notation a_plane := (a_plane fmod degree centric au opens refuses).
Local Notation source_of := (source_of fmod degree centric au opens refuses).
Local Notation plane_of := (plane_of fmod degree centric au opens refuses).

(** Images of one plane. *)
Lemma images_agree b l g : g_body g = Some b -> clean (g_val g) ->
  agrees (each a_image l g) (all_some (image_of (g_pp g) b) l)
    (fun _ ps g' => clean (g_val g') /\ g_photo_factories g' = g_photo_factories g ++ ps /\ stable g' = stable g /\
       g_image_factories g' = g_image_factories g /\ g_expected_plane g' = g_expected_plane g /\
       g_minimum g' = g_minimum g /\ g_maximum g' = g_maximum g /\ g_graphic_lat g' = g_graphic_lat g).
Proof.
  revert g. induction l as [| i l IH]; intros g B C; cbn [each all_some].
  - apply agrees_ret. rewrite app_nil_r. auto 10.
  - eapply agrees_bind; [apply image_agrees; assumption |]. intros ? p g1 _ (v & Cv & ->).
    specialize (IH (after_image g v p) B Cv). cbn [after_image set_photo_factory set_view set_photo_parameters set_photo_factories set_vals g_pp] in IH.
    assert (E : agrees (each a_image l (after_image g v p)) (option_map (cons p) (all_some (image_of (g_pp g) b) l))
       (fun _ ps g' => clean (g_val g') /\ g_photo_factories g' = g_photo_factories g ++ ps /\ stable g' = stable g /\
       g_image_factories g' = g_image_factories g /\ g_expected_plane g' = g_expected_plane g /\
       g_minimum g' = g_minimum g /\ g_maximum g' = g_maximum g /\ g_graphic_lat g' = g_graphic_lat g)).
    { eapply agrees_map; [exact IH |]. cbn beta.
      intros _ ps g' _ (H1 & H2 & H3 & H4 & H5 & H6 & H7 & H8). split; [exact H1 |]. split.
      - rewrite H2. cbn. rewrite <- app_assoc. reflexivity.
      - repeat split; assumption. }
    destruct (all_some (image_of (g_pp g) b) l); exact E.
Qed.

Definition latitude_type (gl : bool) (k : option lat_kind) : bool :=
  match k with Some Graphic => true | Some Centric => false | None => gl end.

(** The source of a plane and the latitude type afterwards. *)
Definition ordered_source (d : defaults) (b : body) (avg : average) (gl : bool) (t : plane_type) : option (source_factory * bool) :=
  match t with
  | T_latitude k => Some (F_latitude b (latitude_type gl k), latitude_type gl k)
  | t => do s <- source_of d b avg t; Some (s, gl)
  end.

Lemma all_some_length {X Y} (f : X -> option Y) l r : all_some f l = Some r -> List.length r = List.length l.
Proof.
  revert r. induction l as [| a l IH]; cbn; intros r.
  - intros [= <-]. reflexivity.
  - destruct (f a) as [y |]; cbn; [| discriminate]. destruct (all_some f l) as [ys |]; cbn; [| discriminate].
    intros [= <-]. cbn. f_equal. apply IH. reflexivity.
Qed.

Definition plane_frame (g g' : globals) : Prop :=
  clean (g_val g') /\ stable g' = stable g /\ g_image_factories g' = g_image_factories g /\
  g_expected_plane g' = g_expected_plane g /\ g_minimum g' = g_minimum g /\ g_maximum g' = g_maximum g.

Lemma source_agrees b t g : g_body g = Some b -> clean (g_val g) -> g_photo_factories g = [] ->
  agrees (a_plane_type t g) (ordered_source (g_pp g) b (g_averaging g) (g_graphic_lat g) t)
    (fun _ r g' => plane_frame g g' /\ g_photo_factories g' = [] /\
       g_image_factory g' = Some (ImageFactory (fst r) ex_empty) /\ g_graphic_lat g' = snd r).
Proof.
  intros B C P. unfold plane_frame.
  destruct t as [i more | o r s | o s | o r s | k |]; cbn [Parse_Model.a_plane_type ordered_source Parse_Spec.source_of].
  - pose proof (images_agree b (i :: more) g B C) as E.
    assert (L : forall r, all_some (image_of (g_pp g) b) (i :: more) = Some r -> List.length r = S (List.length more))
      by (intros r Er; apply all_some_length in Er; exact Er).
    cbn [each] in E.
    destruct (all_some (image_of (g_pp g) b) (i :: more)) as [ps |]; cbn [obind].
    + destruct E as (u & g1 & E & H1 & H2 & H3 & H4 & H5 & H6 & H7 & H8).
      assert (V : g_averaging g1 = g_averaging g) by (unfold stable in H3; congruence).
      specialize (L ps eq_refl).
      assert (A : andthen (a_image i) (fun _ => each a_image more) g = Ok (Some (u, g1))) by exact E.
      unfold andthen in A. destruct (a_image i g) as [[[[] g2] |] | |] eqn:Ai; try discriminate.
      eapply agrees_step; [exact Ai |]. eapply agrees_step; [exact A |]. eapply agrees_step; [reflexivity |].
      rewrite H2, P. cbn [app].
      destruct ps as [| p [| q ps]]; [discriminate | |].
      * eapply agrees_step; [reflexivity |]. apply agrees_update. cbn. auto 12.
      * eapply agrees_step; [reflexivity |]. rewrite V.
        eapply agrees_step; [reflexivity |].
        eapply agrees_step; [reflexivity |]. apply agrees_update. cbn. auto 12.
    + destruct E as [E | [e E]]; unfold andthen in E |- *; destruct (a_image i g) as [[[[] g2] |] | |]; try discriminate.
      * rewrite E. left. reflexivity.
      * left. reflexivity.
      * rewrite E. right. exists e. reflexivity.
      * right. exists e0. reflexivity.
  - rewrite <- ?Obind_assoc. eapply agrees_bind; [apply point_agrees; exact B |]. intros x y g1 _ [-> ->].
    rewrite <- ?Obind_assoc. eapply agrees_bind with (R := fun _ _ g' => g' = g).
    { destruct s as [s |]; cbn [optionally optional]; [| apply agrees_ret; reflexivity].
      eapply agrees_bind; [apply point_agrees; exact B |]. intros x' y' g1 _ [-> ->]. apply agrees_ret. reflexivity. }
    intros _ ? g1 _ ->. eapply agrees_step; [unfold deref; rewrite B; reflexivity |].
    apply agrees_update. cbn. auto 12.
  - rewrite <- ?Obind_assoc. eapply agrees_bind with (R := fun _ _ g' => g' = g).
    { destruct o as [o |]; cbn [optionally optional]; [| apply agrees_ret; reflexivity].
      eapply agrees_bind; [apply point_agrees; exact B |]. intros x' y' g1 _ [-> ->]. apply agrees_ret. reflexivity. }
    intros _ ? g1 _ ->. rewrite <- ?Obind_assoc. eapply agrees_bind; [apply point_agrees; exact B |]. intros x y g1 _ [-> ->].
    eapply agrees_step; [unfold deref; rewrite B; reflexivity |].
    apply agrees_update. cbn. auto 12.
  - rewrite <- ?Obind_assoc. eapply agrees_bind; [apply point_agrees; exact B |]. intros x y g1 _ [-> ->].
    rewrite <- ?Obind_assoc. eapply agrees_bind; [apply point_agrees; exact B |]. intros x' y' g1 _ [-> ->].
    eapply agrees_step; [unfold deref; rewrite B; reflexivity |].
    apply agrees_update. cbn. auto 12.
  - assert (E : a_lat_type k g = Ok (Some (tt, set_graphic_lat (latitude_type (g_graphic_lat g) k) g)))
      by (destruct k as [[] |]; destruct g; reflexivity).
    eapply agrees_step; [exact E |]. eapply agrees_step; [unfold deref; cbn; rewrite B; reflexivity |].
    eapply agrees_step; [reflexivity |]. apply agrees_update. cbn. auto 12.
  - apply agrees_update. cbn. auto 12.
Qed.
(** The number of a plane: the number expected next. *)
Definition ordered_size (np e : Z) (o : option number) : option Z :=
  match o with
  | None => Some e
  | Some n =>
      do z <- kept (integer n);
      if (np =? 0) then None
      else if (wrap z =? e) && (wrap z <=? np) then Some (wrap (e + 1)) else None
  end.

Lemma size_agrees n g :
  agrees (a_plane_size n g) (ordered_size (g_num_planes g) (g_expected_plane g) n)
    (fun _ e g' => g' = set_maximum (d_maximum (g_pp g)) (set_minimum (d_minimum (g_pp g)) (set_expected_plane e g))).
Proof.
  unfold a_plane_size.
  set (rest := fun _ : unit => _).
  assert (F : forall g', g_pp g' = g_pp g ->
     rest tt g' = Ok (Some (tt, set_maximum (d_maximum (g_pp g)) (set_minimum (d_minimum (g_pp g)) g'))))
    by (intros g' <-; reflexivity).
  unfold ordered_size, optionally. destruct n as [n |].
  - destruct (integer n) as [z | | e] eqn:I; cbn [of_parsed kept obind].
    + unfold andthen at 1 2. cbn [ret]. unfold andthen at 1, read at 1.
      destruct (g_num_planes g =? 0); [left; reflexivity |].
      unfold andthen at 1, read at 1.
      destruct (wrap z =? g_expected_plane g); cbn [andb]; [| left; reflexivity].
      destruct (wrap z <=? g_num_planes g); [| left; reflexivity].
      cbn [update]. rewrite F by reflexivity. eexists tt, _. split; reflexivity.
    + left. reflexivity.
    + right. exists e. reflexivity.
  - unfold andthen at 1. cbn [ret]. rewrite F by reflexivity. eexists tt, _. split; [reflexivity |].
    destruct g; reflexivity.
Qed.

Lemma data_range_agrees r g :
  agrees (a_data_range r g) (range_of (g_minimum g, g_maximum g) r)
    (fun _ x g' => g' = set_maximum (snd x) (set_minimum (fst x) g)).
Proof.
  destruct r as [| x | x | lo hi | hi lo]; cbn [a_data_range range_of].
  - apply agrees_ret. destruct g; reflexivity.
  - apply agrees_update. destruct g; reflexivity.
  - apply agrees_update. destruct g; reflexivity.
  - destruct (flt lo hi); [| left; reflexivity].
    eapply agrees_step; [reflexivity |]. apply agrees_update. destruct g; reflexivity.
  - destruct (flt lo hi); [| left; reflexivity].
    eapply agrees_step; [reflexivity |]. apply agrees_update. destruct g; reflexivity.
Qed.

Definition limits_of (x : option double * option double) : option (extrema (ct F64)) :=
  if number_or_none (fst x) && number_or_none (snd x)
  then Some (Extrema (T := ct F64) (fst x) (snd x)) else None.

(** The factory of a plane, the number expected next, and the latitude type. *)
Definition ordered_plane (d : defaults) (b : body) (avg : average) (np e : Z) (gl : bool) (p : plane_entry)
  : option (image_factory * Z * bool) :=
  do e <- ordered_size np e (pe_number p);
  do x <- range_of (d_minimum d, d_maximum d) (pe_range p);
  do s <- ordered_source d b avg gl (pe_type p);
  do l <- limits_of x;
  Some (ImageFactory (fst s) l, e, snd s).

Lemma plane_agrees b p g : g_body g = Some b -> clean (g_val g) -> g_photo_factories g = [] ->
  agrees (a_plane p g)
    (ordered_plane (g_pp g) b (g_averaging g) (g_num_planes g) (g_expected_plane g) (g_graphic_lat g) p)
    (fun _ r g' => clean (g_val g') /\ stable g' = stable g /\ g_photo_factories g' = [] /\
       g_image_factories g' = g_image_factories g ++ [fst (fst r)] /\
       g_expected_plane g' = snd (fst r) /\ g_graphic_lat g' = snd r).
Proof.
  intros B C P. unfold Parse_Model.a_plane, ordered_plane.
  eapply agrees_bind; [apply size_agrees |]. intros _ e g1 _ ->.
  eapply agrees_bind; [apply data_range_agrees |]. intros _ x g1 _ ->. cbn [fst snd].
  set (g2 := set_maximum (snd x) _).
  eapply agrees_bind; [apply (source_agrees b _ g2); assumption |].
  intros _ s g3 _ ((H1 & H2 & H3 & H4 & H5 & H6) & H7 & H8 & H9).
  assert (M5 : g_minimum g3 = fst x) by exact H5. assert (M6 : g_maximum g3 = snd x) by exact H6.
  assert (M3 : g_image_factories g3 = g_image_factories g) by exact H3.
  assert (M2 : stable g3 = stable g) by exact H2.
  assert (M4 : g_expected_plane g3 = e) by exact H4.
  clearbody g2. clear H2 H3 H4 H5 H6.
  eapply agrees_step; [unfold deref; rewrite H8; reflexivity |].
  eapply agrees_step; [reflexivity |]. rewrite M5. cbn [if_limits if_source].
  destruct x as [mi ma]. cbn [fst snd] in *. unfold limits_of. cbn [fst snd].
  assert (K : forall ex, ex = Extrema (T := ct F64) mi ma ->
    agrees ((l <- read g_image_factories ;;
      update (set_image_factories (l ++ [ImageFactory (fst s) ex])) ;;
      update (set_image_factory None) ;; update (set_photo_factories [])) g3)
     (Some (ImageFactory (fst s) (Extrema (T := ct F64) mi ma), e, snd s))
     (fun _ r g' => clean (g_val g') /\ stable g' = stable g /\ g_photo_factories g' = [] /\
       g_image_factories g' = g_image_factories g ++ [fst (fst r)] /\
       g_expected_plane g' = snd (fst r) /\ g_graphic_lat g' = snd r)).
  { intros ex ->. repeat (eapply agrees_step; [reflexivity |]). apply agrees_update. cbn. rewrite M3. auto 10. }
  destruct mi as [lo |]; cbn [number_or_none].
  - destruct (is_nan lo) eqn:N; cbn [negb andb obind].
    + right. exists invalid_argument. unfold andthen at 1, of_outcome, ex_set_min, validate_minimum. rewrite N. reflexivity.
    + eapply agrees_step; [unfold of_outcome, ex_set_min, validate_minimum; rewrite N; reflexivity |].
      eapply agrees_step; [reflexivity |]. rewrite M6. destruct ma as [hi |]; cbn [number_or_none].
      * destruct (is_nan hi) eqn:N'; cbn [negb andb obind].
        -- right. exists invalid_argument. unfold andthen at 1, of_outcome, ex_set_max, validate_maximum. rewrite N'. reflexivity.
        -- eapply agrees_step; [unfold of_outcome, ex_set_max, validate_maximum; rewrite N'; reflexivity |]. apply K. reflexivity.
      * eapply agrees_step; [reflexivity |]. apply K. reflexivity.
  - eapply agrees_step; [reflexivity |]. eapply agrees_step; [reflexivity |]. rewrite M6.
    destruct ma as [hi |]; cbn [number_or_none].
    + destruct (is_nan hi) eqn:N'; cbn [negb andb obind].
      * right. exists invalid_argument. unfold andthen at 1, of_outcome, ex_set_max, validate_maximum. rewrite N'. reflexivity.
      * eapply agrees_step; [unfold of_outcome, ex_set_max, validate_maximum; rewrite N'; reflexivity |]. apply K. reflexivity.
    + eapply agrees_step; [reflexivity |]. apply K. reflexivity.
Qed.

Fixpoint ordered_planes (d : defaults) (b : body) (avg : average) (np e : Z) (gl : bool) (l : list plane_entry)
  : option (list image_factory * bool) :=
  match l with
  | [] => Some ([], gl)
  | p :: l =>
      do r <- ordered_plane d b avg np e gl p;
      do s <- ordered_planes d b avg np (snd (fst r)) (snd r) l;
      Some (fst (fst r) :: fst s, snd s)
  end.

Lemma planes_agree b l g : g_body g = Some b -> clean (g_val g) -> g_photo_factories g = [] ->
  agrees (each a_plane l g)
    (ordered_planes (g_pp g) b (g_averaging g) (g_num_planes g) (g_expected_plane g) (g_graphic_lat g) l)
    (fun _ r g' => clean (g_val g') /\ stable g' = stable g /\ g_photo_factories g' = [] /\
       g_image_factories g' = g_image_factories g ++ fst r /\ g_graphic_lat g' = snd r).
Proof.
  revert g. induction l as [| p l IH]; intros g B C P; cbn [each ordered_planes].
  - apply agrees_ret. cbn. rewrite app_nil_r. auto.
  - eapply agrees_bind; [apply (plane_agrees b); assumption |].
    intros _ r g1 _ (H1 & H2 & H3 & H4 & H5 & H6).
    assert (B1 : g_body g1 = Some b) by (unfold stable in H2; congruence).
    specialize (IH g1 B1 H1 H3). rewrite H5, H6 in IH.
    replace (g_pp g1) with (g_pp g) in IH by (unfold stable in H2; congruence).
    replace (g_averaging g1) with (g_averaging g) in IH by (unfold stable in H2; congruence).
    replace (g_num_planes g1) with (g_num_planes g) in IH by (unfold stable in H2; congruence).
    destruct (ordered_planes (g_pp g) b (g_averaging g) (g_num_planes g) (snd (fst r)) (snd r) l) as [s |]; cbn [obind].
    + destruct IH as (a & g2 & E & K1 & K2 & K3 & K4 & K5). exists a, g2. split; [exact E |].
      split; [exact K1 |]. split; [congruence |]. split; [exact K3 |]. split; [| exact K5].
      rewrite K4, H4, <- app_assoc. reflexivity.
    + exact IH.
Qed.
(** ** Projections *)
Local Notation a_construct := (a_construct construct).
Local Notation a_ortho_options := (a_ortho_options fmod degree centric).
Local Notation a_projection := (a_projection fmod degree centric construct).
Local Notation a_lat_range := (a_lat_range degree centric).
Local Notation a_lon_range := (a_lon_range fmod).
Local Notation projection_args := (projection_args fmod degree centric).
Local Notation projection_of := (projection_of fmod degree centric construct).
Local Notation ortho_center_of := (ortho_center_of fmod degree centric).
Local Notation lat_range_of := (lat_range_of degree centric).
Local Notation lon_range_of := (lon_range_of fmod).

(** A state while a projection is read. *)
Definition prj (g : globals) (a : average) (n : bool) (v : var -> double) (c : ortho_center) (gl : bool) : globals :=
  set_averaging a (set_north_pole n (set_vals v (set_ortho_center c (set_graphic_lat gl g)))).

Lemma read_option_agrees {A B} (o : option A) (f : A -> act B) h g :
  (forall a, agrees (f a g) (h a) (fun x y g' => x = y /\ g' = g)) ->
  agrees (read_option o f g) (optional o h) (fun x y g' => x = y /\ g' = g).
Proof.
  intros H. destruct o as [a |]; cbn [read_option optional].
  - eapply agrees_bind; [apply H |]. intros x y g' _ [-> ->]. apply agrees_ret. auto.
  - apply agrees_ret. auto.
Qed.

Lemma km_agrees o g a n v c gl :
  agrees (optionally o a_km_per_pixel (prj g a n v c gl)) (optional o (fun x => if positive x then Some x else None))
    (fun _ r g' => g' = prj g a n (match r with Some x => put v km_per_pixel_val x | None => v end) c gl).
Proof.
  destruct o as [x |]; cbn [optionally optional].
  - unfold a_km_per_pixel. destruct (positive x); cbn [obind]; [| left; reflexivity].
    apply agrees_update. reflexivity.
  - apply agrees_ret. reflexivity.
Qed.

Definition center_result (v : var -> double) : Ortho_Model.center ar_double :=
  if two_numbers (v sample_center) (v line_center) then center_given (A := ar_double) (v sample_center) (v line_center)
  else if two_numbers (v lat_at_center) (v lon_at_center) then lat_lon_given (A := ar_double) (v lat_at_center) (v lon_at_center)
  else default_center.
Definition one_center (v : var -> double) : Prop :=
  two_numbers (v sample_center) (v line_center) = false \/ two_numbers (v lat_at_center) (v lon_at_center) = false.

Lemma ortho_centers_read b o g a n v c gl : g_body g = Some b -> clean v ->
  agrees (optionally o a_centers (prj g a n v c gl)) (optional o (ortho_center_of b))
    (fun _ r g' => exists v', g' = prj g a n v' c gl /\ center_result v' = or_else r default_center /\
                              one_center v' /\ forall k, is_center k = false -> v' k = v k).
Proof.
  intros B C. destruct o as [e |]; cbn [optionally optional].
  - unfold center_result, one_center. destruct e as [s l | l s | p]; cbn [Parse_Model.a_centers Parse_Spec.ortho_center_of obind or_else].
    1, 2: eapply agrees_step; [reflexivity |]; apply agrees_update;
      exists (put (put v sample_center s) line_center l); (split; [reflexivity |]); cbn;
      rewrite (c_lat_lon v C); (split; [reflexivity |]); (split; [right; reflexivity |]);
      intros k Hk; destruct k; try discriminate; reflexivity.
    rewrite <- Obind_assoc. eapply agrees_bind; [apply point_agrees; exact B |]. intros x y g1 _ [-> ->].
    eapply agrees_step; [reflexivity |]. apply agrees_update.
    exists (put (put v lat_at_center (fst y)) lon_at_center (snd y)). split; [reflexivity |]. cbn.
    rewrite (c_center v C). split; [reflexivity |]. split; [left; reflexivity |].
    intros k Hk. destruct k; try discriminate; reflexivity.
  - apply agrees_ret. exists v. split; [reflexivity |]. unfold center_result, one_center.
    rewrite (c_center v C), (c_lat_lon v C). cbn. auto.
Qed.

(** After the centers were used. *)
Definition centers_used (v v' : var -> double) : Prop :=
  two_numbers (v' sample_center) (v' line_center) = false /\
  two_numbers (v' lat_at_center) (v' lon_at_center) = false /\
  forall k, is_center k = false -> v' k = v k.

Lemma two_nan x : two_numbers nan x = false.
Proof. reflexivity. Qed.

Lemma ortho_centers_step g a n v c gl : one_center v -> oc_geometry c = DEFAULT ->
  exists v' c', a_ortho_centers (prj g a n v c gl) = Ok (Some (tt, prj g a n v' c' gl)) /\
    used_center c' = center_result v /\ centers_used v v'.
Proof.
  intros O D. unfold a_ortho_centers, center_result, centers_used.
  change (fun s => _) with (fun s => s) || idtac.
  destruct (two_numbers (v sample_center) (v line_center)) eqn:T1.
  - exists (put (put v sample_center nan) line_center nan), (OrthoCenter CENTER_GIVEN (v sample_center) (v line_center)).
    split.
    + unfold andthen at 1 2, read at 1 2. cbn [g_val prj set_averaging set_north_pole set_vals].
      unfold two_numbers in T1. rewrite T1. reflexivity.
    + split; [reflexivity |]. split; [reflexivity |]. split.
      * destruct O as [O | O]; [congruence | exact O].
      * intros k Hk. destruct k; try discriminate; reflexivity.
  - destruct (two_numbers (v lat_at_center) (v lon_at_center)) eqn:T2.
    + exists (put (put v lat_at_center nan) lon_at_center nan), (OrthoCenter LAT_LON_GIVEN (v lat_at_center) (v lon_at_center)).
      split.
      * unfold andthen at 1 2, read at 1 2. cbn [g_val prj set_averaging set_north_pole set_vals].
        unfold two_numbers in T1, T2. rewrite T1. unfold andthen at 1 2, read at 1 2. cbn [g_val prj set_averaging set_north_pole set_vals].
        rewrite T2. reflexivity.
      * split; [reflexivity |]. split; [exact T1 |]. split; [reflexivity |].
        intros k Hk. destruct k; try discriminate; reflexivity.
    + exists v, c. split.
      * unfold andthen at 1 2, read at 1 2. cbn [g_val prj set_averaging set_north_pole set_vals].
        unfold two_numbers in T1, T2. rewrite T1. unfold andthen at 1 2, read at 1 2. cbn [g_val prj set_averaging set_north_pole set_vals].
        rewrite T2. reflexivity.
      * unfold used_center. rewrite D. auto.
Qed.

Record ortho_read (v v' : var -> double) (so : double * double) (pa km : double) : Prop := {
  or_lat : v' sub_observ_lat = fst so;
  or_lon : v' sub_observ_lon = snd so;
  or_pa : v' position_angle_val = pa;
  or_km : v' km_per_pixel_val = km;
  or_center : two_numbers (v' sample_center) (v' line_center) = false;
  or_lat_lon : two_numbers (v' lat_at_center) (v' lon_at_center) = false;
  or_other : forall k, is_center k = false ->
    match k with sub_observ_lat | sub_observ_lon | position_angle_val | km_per_pixel_val => False | _ => True end ->
    v' k = v k }.

Definition ortho_args (b : body) (o : ortho_options) : option (double * double * double * double * Ortho_Model.center ar_double) :=
  do so <- optional (oo_sub_observ o) (point_of b);
  do pa <- optional (oo_position_angle o) angle_of;
  do km <- optional (oo_km_per_pixel o) (fun x => if positive x then Some x else None);
  do c <- optional (oo_centers o) (ortho_center_of b);
  Some (or_else so (double_of_Z 0, double_of_Z 0), or_else pa (double_of_Z 0), or_else km (double_of_Z (-1)), or_else c default_center).

Lemma ortho_options_agree b o g a n v c gl : g_body g = Some b -> clean v -> oc_geometry c = DEFAULT ->
  agrees (a_ortho_options o (prj g a n v c gl)) (ortho_args b o)
    (fun _ '(so, pa, km, x) g' => exists v' c', g' = prj g a n v' c' gl /\ used_center c' = x /\ ortho_read v v' so pa km).
Proof.
  intros B C D. unfold Parse_Model.a_ortho_options, ortho_args.
  eapply agrees_bind; [apply read_option_agrees; intros p; apply point_agrees; exact B |]. intros x so g1 _ [-> ->].
  eapply agrees_bind; [apply read_option_agrees; intros p; apply angle_agrees |]. intros x pa g1 _ [-> ->].
  eapply agrees_bind; [apply km_agrees |]. intros _ km g1 _ ->. cbn beta.
  set (v1 := match km with Some _ => _ | None => _ end).
  destruct (oo_centers o) as [e |] eqn:Eo.
  - eapply agrees_bind with (R := fun _ r g' => exists v', g' = prj g a n v' c gl /\ center_result v' = or_else r default_center /\
                              one_center v' /\ forall k, is_center k = false -> v' k = v1 k).
    { assert (W := ortho_centers_read b (Some e) g a n v1 c gl B).
      assert (C1 : two_numbers (v1 sample_center) (v1 line_center) = false) by (subst v1; destruct km; exact (c_center v C)).
      assert (C2 : two_numbers (v1 lat_at_center) (v1 lon_at_center) = false) by (subst v1; destruct km; exact (c_lat_lon v C)).
      clear W. cbn [optionally optional]. clearbody v1.
      unfold center_result, one_center. destruct e as [s l | l s | p]; cbn [Parse_Model.a_centers Parse_Spec.ortho_center_of obind or_else].
      1, 2: eapply agrees_step; [reflexivity |]; apply agrees_update;
        exists (put (put v1 sample_center s) line_center l); (split; [reflexivity |]); cbn;
        rewrite C2; (split; [reflexivity |]); (split; [right; reflexivity |]);
        intros k Hk; destruct k; try discriminate; reflexivity.
      rewrite <- Obind_assoc. eapply agrees_bind; [apply point_agrees; exact B |]. intros x y g1 _ [-> ->].
      eapply agrees_step; [reflexivity |]. apply agrees_update.
      exists (put (put v1 lat_at_center (fst y)) lon_at_center (snd y)). split; [reflexivity |]. cbn.
      rewrite C1. split; [reflexivity |]. split; [left; reflexivity |].
      intros k Hk. destruct k; try discriminate; reflexivity. }
    intros _ r g1 _ (v2 & -> & R & O & K).
    eapply agrees_step with (a := tt) (g' := prj g a n (match so with Some p => put (put v2 sub_observ_lat (fst p)) sub_observ_lon (snd p) | None => v2 end) c gl).
    { destruct so as [p |]; reflexivity. }
    set (v3 := match so with Some _ => _ | None => v2 end).
    eapply agrees_step with (a := tt) (g' := prj g a n (match pa with Some x => put v3 position_angle_val x | None => v3 end) c gl).
    { destruct pa as [p |]; reflexivity. }
    set (v4 := match pa with Some _ => _ | None => v3 end).
    assert (S4 : forall k, is_center k = true -> v4 k = v2 k)
      by (intros k Hk; subst v4 v3; destruct pa, so; destruct k; try discriminate; reflexivity).
    assert (O4 : one_center v4) by (unfold one_center; rewrite !S4 by reflexivity; exact O).
    destruct (ortho_centers_step g a n v4 c gl O4 D) as (v5 & c5 & E & U & T1 & T2 & T3).
    cbn [optionally]. exists tt, (prj g a n v5 c5 gl). split; [exact E |].
    exists v5, c5. split; [reflexivity |]. split.
    + rewrite U, <- R. unfold center_result. rewrite !S4 by reflexivity. reflexivity.
    + assert (N : forall k, is_center k = false -> match k with sub_observ_lat | sub_observ_lon | position_angle_val => False | _ => True end -> v5 k = v1 k).
      { intros k Hk Hk'. rewrite T3 by exact Hk. rewrite <- K by exact Hk. subst v4 v3.
        destruct pa, so; destruct k; try discriminate; try contradiction; reflexivity. }
      constructor.
      * rewrite T3 by reflexivity. subst v4 v3. destruct pa, so; try reflexivity.
        all: cbn; rewrite K by reflexivity; subst v1; destruct km; exact (c_sub_lat v C).
      * rewrite T3 by reflexivity. subst v4 v3. destruct pa, so; try reflexivity.
        all: cbn; rewrite K by reflexivity; subst v1; destruct km; exact (c_sub_lon v C).
      * rewrite T3 by reflexivity. subst v4 v3. destruct pa, so; try reflexivity.
        all: cbn; rewrite K by reflexivity; subst v1; destruct km; exact (c_angle v C).
      * rewrite N by (exact I || reflexivity). subst v1. destruct km; [reflexivity |]. exact (c_km v C).
      * exact T1.
      * exact T2.
      * intros k Hk Hk'. rewrite N; [| exact Hk | destruct k; try exact I; contradiction].
        subst v1. destruct km; [| reflexivity]. destruct k; try discriminate; try contradiction; reflexivity.
  - cbn [optionally optional obind or_else].
    eapply agrees_step; [reflexivity |].
    eapply agrees_step with (a := tt) (g' := prj g a n (match so with Some p => put (put v1 sub_observ_lat (fst p)) sub_observ_lon (snd p) | None => v1 end) c gl).
    { destruct so as [p |]; reflexivity. }
    set (v3 := match so with Some _ => _ | None => v1 end).
    eapply agrees_step with (a := tt) (g' := prj g a n (match pa with Some x => put v3 position_angle_val x | None => v3 end) c gl).
    { destruct pa as [p |]; reflexivity. }
    set (v4 := match pa with Some _ => _ | None => v3 end).
    apply agrees_ret. exists v4, c. split; [reflexivity |]. split; [unfold used_center; rewrite D; reflexivity |].
    constructor; subst v4 v3 v1.
    + destruct pa, so, km; try reflexivity; exact (c_sub_lat v C).
    + destruct pa, so, km; try reflexivity; exact (c_sub_lon v C).
    + destruct pa, so, km; try reflexivity; exact (c_angle v C).
    + destruct pa, so, km; try reflexivity; exact (c_km v C).
    + destruct pa, so, km; exact (c_center v C).
    + destruct pa, so, km; exact (c_lat_lon v C).
    + intros k Hk Hk'. destruct pa, so, km; destruct k; try discriminate; try contradiction; reflexivity.
Qed.

(** The projection and the latitude type afterwards. *)
Definition ordered_args (b : body) (gl : bool) (p : projection_entry) : option (projection * bool) :=
  match p with
  | T_simple_c None =>
      Some (SimpleCylindrical b (double_of_Z (-90)) (double_of_Z 90) (double_of_Z 0) (double_of_Z 360) gl, false)
  | T_simple_c (Some (_, k, lats, lons)) =>
      do lats <- optional lats (lat_range_of b);
      do lons <- optional lons (lon_range_of b);
      let lats := or_else lats (double_of_Z (-90), double_of_Z 90) in
      let lons := or_else lons (double_of_Z 0, double_of_Z 360) in
      Some (SimpleCylindrical b (fst lats) (snd lats) (fst lons) (snd lons) (latitude_type gl k), false)
  | p => do x <- projection_args b p; Some (x, gl)
  end.
Definition ordered_projection (b : body) (gl : bool) (p : projection_entry) : option (projection * bool) :=
  do x <- ordered_args b gl p; if nothing_thrown (construct (fst x)) then Some x else None.

Definition average_given (p : projection_entry) : option average :=
  match p with
  | T_mercator (Some a) | T_ortho (Some (a, _)) | T_p_stereo (Some (a, _, _)) | T_simple_c (Some (a, _, _, _)) => a
  | _ => None
  end.

Lemma averaging_step o g a n v c gl :
  a_averaging o (prj g a n v c gl) = Ok (Some (tt, prj g (or_else o a) n v c gl)).
Proof. destruct o; reflexivity. Qed.

Lemma construct_agrees x g :
  agrees (a_construct x g) (if nothing_thrown (construct x) then Some x else None)
    (fun _ y g' => g' = set_factory (Some y) g).
Proof.
  unfold Parse_Model.a_construct. destruct (construct x) as [e |]; cbn.
  - right. exists e. reflexivity.
  - eexists tt, _. split; reflexivity.
Qed.

Definition projected (g : globals) (a : average) (x : projection * bool) (g' : globals) : Prop :=
  exists v c, clean v /\ oc_geometry c = DEFAULT /\
    g' = set_factory (Some (fst x)) (prj g a true v c (snd x)).

Lemma lat_range_agrees b r g a n v c gl : g_body g = Some b ->
  agrees (a_lat_range r (prj g a n v c gl)) (lat_range_of b r)
    (fun _ x g' => g' = prj g a n (put (put v lo_lat (fst x)) hi_lat (snd x)) c gl).
Proof.
  intros B. unfold Parse_Model.a_lat_range. destruct r as [lo hi | hi lo]; cbn [Parse_Spec.lat_range_of].
  - unfold andthen at 1.
    assert (E : agrees ((x <- a_latitude lo ;; y <- a_latitude hi ;; ret (x, y)) (prj g a n v c gl))
       (do x <- lat_of b lo; do y <- lat_of b hi; Some (x, y)) (fun x y g' => x = y /\ g' = prj g a n v c gl)).
    { eapply agrees_bind; [apply latitude_agrees; exact B |]. intros ? ? ? _ [-> ->].
      eapply agrees_bind; [apply latitude_agrees; exact B |]. intros ? ? ? _ [-> ->]. apply agrees_ret. auto. }
    destruct (lat_of b lo) as [x |]; cbn [obind] in E |- *; [destruct (lat_of b hi) as [y |]; cbn [obind] in E |- * |].
    + destruct E as (z & g' & -> & -> & ->). cbn [fst snd].
      destruct (flt x y); [| left; reflexivity]. eexists tt, _. split; reflexivity.
    + destruct E as [-> | [e ->]]; [left | right; exists e]; reflexivity.
    + destruct E as [-> | [e ->]]; [left | right; exists e]; reflexivity.
  - unfold andthen at 1.
    assert (E : agrees ((y <- a_latitude hi ;; x <- a_latitude lo ;; ret (x, y)) (prj g a n v c gl))
       (do y <- lat_of b hi; do x <- lat_of b lo; Some (x, y)) (fun x y g' => x = y /\ g' = prj g a n v c gl)).
    { eapply agrees_bind; [apply latitude_agrees; exact B |]. intros ? ? ? _ [-> ->].
      eapply agrees_bind; [apply latitude_agrees; exact B |]. intros ? ? ? _ [-> ->]. apply agrees_ret. auto. }
    destruct (lat_of b lo) as [x |]; cbn [obind] in E |- *; destruct (lat_of b hi) as [y |]; cbn [obind] in E |- *.
    + destruct E as (z & g' & -> & -> & ->). cbn [fst snd].
      destruct (flt x y); [| left; reflexivity]. eexists tt, _. split; reflexivity.
    + destruct E as [-> | [e ->]]; [left | right; exists e]; reflexivity.
    + destruct E as [-> | [e ->]]; [left | right; exists e]; reflexivity.
    + destruct E as [-> | [e ->]]; [left | right; exists e]; reflexivity.
Qed.

Lemma lon_range_agrees b r g a n v c gl : g_body g = Some b ->
  agrees (a_lon_range r (prj g a n v c gl)) (lon_range_of b r)
    (fun _ x g' => g' = prj g a n (put (put v lo_lon (fst x)) hi_lon (snd x)) c gl).
Proof.
  intros B. unfold Parse_Model.a_lon_range. destruct r as [lo hi | hi lo]; cbn [Parse_Spec.lon_range_of].
  - unfold andthen at 1.
    assert (E : agrees ((x <- a_longitude lo ;; y <- a_longitude hi ;; ret (x, y)) (prj g a n v c gl))
       (do x <- lon_of b lo; do y <- lon_of b hi; Some (x, y)) (fun x y g' => x = y /\ g' = prj g a n v c gl)).
    { eapply agrees_bind; [apply longitude_agrees; exact B |]. intros ? ? ? _ [-> ->].
      eapply agrees_bind; [apply longitude_agrees; exact B |]. intros ? ? ? _ [-> ->]. apply agrees_ret. auto. }
    destruct (lon_of b lo) as [x |]; cbn [obind] in E |- *; [destruct (lon_of b hi) as [y |]; cbn [obind] in E |- * |].
    + destruct E as (z & g' & -> & -> & ->). eexists tt, _. split; reflexivity.
    + destruct E as [-> | [e ->]]; [left | right; exists e]; reflexivity.
    + destruct E as [-> | [e ->]]; [left | right; exists e]; reflexivity.
  - unfold andthen at 1.
    assert (E : agrees ((y <- a_longitude hi ;; x <- a_longitude lo ;; ret (x, y)) (prj g a n v c gl))
       (do y <- lon_of b hi; do x <- lon_of b lo; Some (x, y)) (fun x y g' => x = y /\ g' = prj g a n v c gl)).
    { eapply agrees_bind; [apply longitude_agrees; exact B |]. intros ? ? ? _ [-> ->].
      eapply agrees_bind; [apply longitude_agrees; exact B |]. intros ? ? ? _ [-> ->]. apply agrees_ret. auto. }
    destruct (lon_of b lo) as [x |]; cbn [obind] in E |- *; destruct (lon_of b hi) as [y |]; cbn [obind] in E |- *.
    + destruct E as (z & g' & -> & -> & ->). eexists tt, _. split; reflexivity.
    + destruct E as [-> | [e ->]]; [left | right; exists e]; reflexivity.
    + destruct E as [-> | [e ->]]; [left | right; exists e]; reflexivity.
    + destruct E as [-> | [e ->]]; [left | right; exists e]; reflexivity.
Qed.

Lemma projection_agrees b p g a v c gl : g_body g = Some b -> clean v -> oc_geometry c = DEFAULT ->
  agrees (a_projection p (prj g a true v c gl)) (ordered_projection b gl p)
    (fun _ x g' => projected g (or_else (average_given p) a) x g').
Proof.
  intros B C D. unfold ordered_projection, projected.
  destruct p as [o | o | o | o]; cbn [Parse_Model.a_projection average_given].
  - cbn [ordered_args]. eapply agrees_step with (a := tt) (g' := prj g (or_else (or_else o None) a) true v c gl).
    { destruct o as [[q |] |]; reflexivity. }
    eapply agrees_step; [unfold deref; cbn; rewrite B; reflexivity |].
    cbn [Parse_Spec.projection_args obind fst].
    eapply agrees_weaken with (R := fun _ y g' => exists v0 c0, clean v0 /\ oc_geometry c0 = DEFAULT /\
        g' = set_factory (Some (fst y)) (prj g (or_else (or_else o None) a) true v0 c0 (snd y))).
    + pose proof (construct_agrees (Mercator b) (prj g (or_else (or_else o None) a) true v c gl)) as E.
      destruct (nothing_thrown (construct (Mercator b))); [| exact E].
      destruct E as (u & g1 & E & ->). exists u. eexists. split; [exact E |]. exists v, c. auto.
    + intros ? y g' _ H. destruct o as [[q |] |]; exact H.
  - cbn [ordered_args]. assert (E : agrees (optionally o (fun o => a_averaging (fst o) ;; a_ortho_options (snd o)) (prj g a true v c gl))
       (match o with
        | Some (_, o) => ortho_args b o
        | None => Some (double_of_Z 0, double_of_Z 0, double_of_Z 0, double_of_Z (-1), default_center) end)
       (fun _ '(so, pa, km, x) g' => exists v' c', g' = prj g (or_else (average_given (T_ortho o)) a) true v' c' gl /\
           used_center c' = x /\ ortho_read v v' so pa km)).
    { destruct o as [[q o] |]; cbn [optionally fst snd average_given].
      - eapply agrees_step; [apply averaging_step |]. apply ortho_options_agree; assumption.
      - apply agrees_ret. exists v, c. split; [reflexivity |]. split; [unfold used_center; rewrite D; reflexivity |].
        constructor; try apply C; intros; reflexivity. }
    assert (P : (do x <- projection_args b (T_ortho o); Some (x, gl)) =
       do r <- match o with
        | Some (_, o) => ortho_args b o
        | None => Some (double_of_Z 0, double_of_Z 0, double_of_Z 0, double_of_Z (-1), default_center) end;
       let '(so, pa, km, x) := r in Some (Orthographic b (fst so) (snd so) pa km x, gl)).
    { destruct o as [[q o] |]; [| reflexivity]. cbn [Parse_Spec.projection_args]. unfold ortho_args.
      destruct (optional (oo_sub_observ o) (point_of b)); [cbn [obind] | reflexivity].
      destruct (optional (oo_position_angle o) angle_of); [cbn [obind] | reflexivity].
      destruct (optional (oo_km_per_pixel o) _); [cbn [obind] | reflexivity].
      destruct (optional (oo_centers o) _); reflexivity. }
    rewrite P, <- Obind_assoc. eapply agrees_bind; [exact E |]. clear E P.
    intros _ [[[so pa] km] x] g1 _ (v' & c' & -> & U & R). cbn [obind fst].
    set (avg := or_else _ a).
    eapply agrees_step; [unfold deref; cbn; rewrite B; reflexivity |].
    eapply agrees_step; [reflexivity |]. eapply agrees_step; [reflexivity |].
    cbn [g_val prj set_averaging set_north_pole set_vals g_ortho_center set_ortho_center].
    rewrite U, (or_lat _ _ _ _ _ R), (or_lon _ _ _ _ _ R), (or_pa _ _ _ _ _ R), (or_km _ _ _ _ _ R).
    set (X := Orthographic b (fst so) (snd so) pa km x).
    pose proof (construct_agrees X (prj g avg true v' c' gl)) as E.
    destruct (nothing_thrown (construct X)).
    + destruct E as ([] & g1 & E & ->). eapply agrees_step; [exact E |].
      repeat (eapply agrees_step; [reflexivity |]). apply agrees_update. cbn [fst snd].
      exists (put (put (put (put v' sub_observ_lat (double_of_Z 0)) sub_observ_lon (double_of_Z 0))
                    km_per_pixel_val (double_of_Z (-1))) position_angle_val (double_of_Z 0)),
        (OrthoCenter DEFAULT (oc_sample_lat c') (oc_line_lon c')).
      split; [| split; reflexivity].
      constructor; try reflexivity;
        try (cbn; rewrite (or_other _ _ _ _ _ R) by (exact I || reflexivity); apply C).
      * exact (or_center _ _ _ _ _ R).
      * exact (or_lat_lon _ _ _ _ _ R).
    + unfold andthen at 1. destruct E as [-> | [e ->]]; [left | right; exists e]; reflexivity.
  - cbn [ordered_args]. assert (E : agrees (optionally o (fun '(q, north, m) =>
        a_averaging q ;;
        update (set_north_pole north) ;;
        optionally m (fun m => x <- a_latitude m ;; update (set_val max_lat x))) (prj g a true v c gl))
       (match o with
        | Some (_, north, m) => do m <- optional m (lat_of b); Some (or_else m nan, north)
        | None => Some (nan, true) end)
       (fun _ y g' => exists v', g' = prj g (or_else (average_given (T_p_stereo o)) a) (snd y) v' c gl /\
           v' max_lat = fst y /\ forall k, var_eqb k max_lat = false -> v' k = v k)).
    { destruct o as [[[q north] m] |]; cbn [optionally fst snd average_given].
      - eapply agrees_step; [apply averaging_step |]. eapply agrees_step; [reflexivity |].
        destruct m as [m |]; cbn [optionally optional].
        + rewrite <- Obind_assoc. eapply agrees_bind; [apply latitude_agrees; exact B |]. intros x y g1 _ [-> ->].
          apply agrees_update. cbn [fst snd or_else]. exists (put v max_lat y). split; [reflexivity |]. split; [reflexivity |].
          intros k Hk. unfold put. rewrite Hk. reflexivity.
        + apply agrees_ret. exists v. split; [reflexivity |]. split; [apply C | reflexivity].
      - apply agrees_ret. exists v. split; [reflexivity |]. split; [apply C | reflexivity]. }
    assert (P : (do x <- projection_args b (T_p_stereo o); Some (x, gl)) =
       do y <- match o with
        | Some (_, north, m) => do m <- optional m (lat_of b); Some (or_else m nan, north)
        | None => Some (nan, true) end;
       Some (PolarStereographic b (fst y) (snd y), gl)).
    { destruct o as [[[q north] m] |]; [| reflexivity]. cbn [Parse_Spec.projection_args].
      destruct (optional m (lat_of b)); reflexivity. }
    rewrite P, <- Obind_assoc. eapply agrees_bind; [exact E |]. clear E P.
    intros _ y g1 _ (v' & -> & M & K). cbn [obind fst].
    set (avg := or_else _ a).
    eapply agrees_step; [unfold deref; cbn; rewrite B; reflexivity |].
    eapply agrees_step; [reflexivity |]. eapply agrees_step; [reflexivity |].
    cbn [g_val prj set_averaging set_north_pole set_vals g_north_pole].
    rewrite M. set (X := PolarStereographic b (fst y) (snd y)).
    pose proof (construct_agrees X (prj g avg (snd y) v' c gl)) as E.
    destruct (nothing_thrown (construct X)).
    + destruct E as ([] & g1 & E & ->). eapply agrees_step; [exact E |].
      repeat (eapply agrees_step; [reflexivity |]). apply agrees_update. cbn [fst snd].
      exists (put v' max_lat nan), c. split; [| split; [exact D | reflexivity]].
      constructor; try reflexivity; cbn; rewrite ?K by reflexivity; apply C.
    + unfold andthen at 1. destruct E as [-> | [e ->]]; [left | right; exists e]; reflexivity.
  - assert (E : agrees (optionally o (fun '(q, k, lats, lons) =>
        a_averaging q ;; a_lat_type k ;; optionally lats a_lat_range ;; optionally lons a_lon_range) (prj g a true v c gl))
       (match o with
        | Some (_, k, lats, lons) =>
            do lats <- optional lats (lat_range_of b); do lons <- optional lons (lon_range_of b);
            Some (or_else lats (double_of_Z (-90), double_of_Z 90), or_else lons (double_of_Z 0, double_of_Z 360), latitude_type gl k)
        | None => Some (double_of_Z (-90), double_of_Z 90, (double_of_Z 0, double_of_Z 360), gl) end)
       (fun _ '(lats, lons, gl') g' => exists v', g' = prj g (or_else (average_given (T_simple_c o)) a) true v' c gl' /\
           v' lo_lat = fst lats /\ v' hi_lat = snd lats /\ v' lo_lon = fst lons /\ v' hi_lon = snd lons /\
           forall k, match k with lo_lat | hi_lat | lo_lon | hi_lon => False | _ => True end -> v' k = v k)).
    { destruct o as [[[[q k] lats] lons] |]; cbn [optionally fst snd average_given].
      - eapply agrees_step; [apply averaging_step |].
        eapply agrees_step with (a := tt) (g' := prj g (or_else q a) true v c (latitude_type gl k)).
        { destruct k as [[] |]; reflexivity. }
        eapply agrees_bind with (R := fun _ r g' => g' = prj g (or_else q a) true
           (match r with Some x => put (put v lo_lat (fst x)) hi_lat (snd x) | None => v end) c (latitude_type gl k)).
        { destruct lats as [r |]; cbn [optionally optional].
          - pose proof (lat_range_agrees b r g (or_else q a) true v c (latitude_type gl k) B) as E.
            destruct (lat_range_of b r); exact E.
          - apply agrees_ret. reflexivity. }
        intros _ la g1 _ ->. set (v1 := match la with Some _ => _ | None => v end).
        assert (E : agrees (optionally lons a_lon_range (prj g (or_else q a) true v1 c (latitude_type gl k)))
           (optional lons (lon_range_of b)) (fun _ r g' => g' = prj g (or_else q a) true
           (match r with Some x => put (put v1 lo_lon (fst x)) hi_lon (snd x) | None => v1 end) c (latitude_type gl k))).
        { destruct lons as [r |]; cbn [optionally optional].
          - pose proof (lon_range_agrees b r g (or_else q a) true v1 c (latitude_type gl k) B) as E.
            destruct (lon_range_of b r); exact E.
          - apply agrees_ret. reflexivity. }
        destruct (optional lons (lon_range_of b)) as [lo |]; cbn [obind]; [| exact E].
        destruct E as (u & g1 & E & ->). eexists u, _. split; [exact E |].
        eexists. split; [reflexivity |]. subst v1.
        destruct lo as [lo |], la as [la |]; cbn;
          rewrite ?(c_lo_lat v C), ?(c_hi_lat v C), ?(c_lo_lon v C), ?(c_hi_lon v C);
          repeat (split; [reflexivity |]); intros k' Hk; destruct k'; try contradiction; reflexivity.
      - apply agrees_ret. exists v. split; [reflexivity |]. cbn. repeat (split; [apply C |]). reflexivity. }
    assert (P : ordered_args b gl (T_simple_c o) =
       do y <- match o with
        | Some (_, k, lats, lons) =>
            do lats <- optional lats (lat_range_of b); do lons <- optional lons (lon_range_of b);
            Some (or_else lats (double_of_Z (-90), double_of_Z 90), or_else lons (double_of_Z 0, double_of_Z 360), latitude_type gl k)
        | None => Some (double_of_Z (-90), double_of_Z 90, (double_of_Z 0, double_of_Z 360), gl) end;
       let '(lats, lons, gl') := y in Some (SimpleCylindrical b (fst lats) (snd lats) (fst lons) (snd lons) gl', false)).
    { cbn [ordered_args]. destruct o as [[[[q k] lats] lons] |]; [| reflexivity].
      destruct (optional lats (lat_range_of b)); [cbn [obind] | reflexivity].
      destruct (optional lons (lon_range_of b)); reflexivity. }
    rewrite P, <- Obind_assoc. eapply agrees_bind; [exact E |]. clear E P.
    intros _ [[lats lons] gl'] g1 _ (v' & -> & M1 & M2 & M3 & M4 & K). cbn [obind fst].
    set (avg := or_else _ a).
    eapply agrees_step; [unfold deref; cbn; rewrite B; reflexivity |].
    eapply agrees_step; [reflexivity |]. eapply agrees_step; [reflexivity |].
    cbn [g_val prj set_averaging set_north_pole set_vals g_graphic_lat set_ortho_center set_graphic_lat].
    rewrite M1, M2, M3, M4. set (X := SimpleCylindrical b _ _ _ _ _).
    pose proof (construct_agrees X (prj g avg true v' c gl')) as E.
    destruct (nothing_thrown (construct X)).
    + destruct E as ([] & g1 & E & ->). eapply agrees_step; [exact E |].
      repeat (eapply agrees_step; [reflexivity |]). apply agrees_update. cbn [fst snd].
      eexists (put (put (put (put v' lo_lat (double_of_Z (-90))) hi_lat (double_of_Z 90)) lo_lon (double_of_Z 0)) hi_lon (double_of_Z 360)), c.
      split; [| split; [exact D | reflexivity]].
      constructor; try reflexivity; cbn; rewrite ?K by exact I; apply C.
    + unfold andthen at 1. destruct E as [-> | [e ->]]; [left | right; exists e]; reflexivity.
Qed.
(** ** Maps *)
Local Notation a_map := (a_map fmod degree centric au construct opens refuses).
Local Notation a_file := (a_file fmod degree centric au construct opens refuses).
Local Notation run_parser := (run_parser fmod degree centric au construct opens refuses).
Local Notation map_body := (map_body fmod degree centric au construct opens refuses).
Local Notation means := (means fmod degree centric au construct opens refuses).

Lemma intervals_agree i g :
  agrees (a_intervals i g) (intervals_of (g_lat_interval g, g_lon_interval g) i)
    (fun _ x g' => g' = set_lon_interval (snd x) (set_lat_interval (fst x) g)).
Proof.
  destruct i as [x | x | x | x y | y x]; cbn [a_intervals intervals_of]; unfold put_lat, put_lon, a_interval, interval_given.
  - destruct (fle x (double_of_Z 0)); cbn [obind]; [right; exists invalid_argument; reflexivity |].
    eapply agrees_step; [reflexivity |]. apply agrees_update. destruct g; reflexivity.
  - destruct (fle x (double_of_Z 0)); cbn [obind]; [right; exists invalid_argument; reflexivity |].
    apply agrees_update. destruct g; reflexivity.
  - destruct (fle x (double_of_Z 0)); cbn [obind]; [right; exists invalid_argument; reflexivity |].
    apply agrees_update. destruct g; reflexivity.
  - destruct (fle x (double_of_Z 0)); cbn [obind]; [right; exists invalid_argument; reflexivity |].
    eapply agrees_step; [reflexivity |].
    destruct (fle y (double_of_Z 0)); cbn [obind]; [right; exists invalid_argument; reflexivity |].
    apply agrees_update. destruct g; reflexivity.
  - destruct (fle y (double_of_Z 0)); cbn [obind]; [destruct (fle x (double_of_Z 0)); right; exists invalid_argument; reflexivity |].
    eapply agrees_step; [reflexivity |].
    destruct (fle x (double_of_Z 0)); cbn [obind]; [right; exists invalid_argument; reflexivity |].
    apply agrees_update. destruct g; reflexivity.
Qed.

Lemma intervals_of_any d d' i : intervals_of d i = None <-> intervals_of d' i = None.
Proof.
  destruct i as [x | x | x | x y | y x]; cbn [intervals_of]; unfold interval_given;
    destruct (fle x (double_of_Z 0)); try (destruct (fle y (double_of_Z 0))); cbn [obind]; split; intros; try reflexivity; discriminate.
Qed.

Lemma grid_agrees m g : g_create_grid g = false ->
  agrees (a_grid (me_grid m) g) (grid_says (g_pp g) m)
    (fun _ r g' => exists la lo, g' = set_lon_interval lo (set_lat_interval la (set_create_grid (match r with Some _ => true | None => false end) g)) /\
       match r with Some x => x = (la, lo) | None => True end).
Proof.
  intros N. unfold a_grid, grid_says. destruct (me_grid m) as [[[|] i] |]; cbn [optionally].
  - set (g1 := set_lon_interval (d_lon_interval (g_pp g)) (set_lat_interval (d_lat_interval (g_pp g)) (set_create_grid true g))).
    eapply agrees_step with (g' := g1); [reflexivity |].
    destruct i as [i |]; cbn [optionally].
    + pose proof (intervals_agree i g1) as E. cbn [g1 set_lon_interval set_lat_interval g_lat_interval g_lon_interval] in E.
      destruct (intervals_of (d_lat_interval (g_pp g), d_lon_interval (g_pp g)) i) as [x |]; cbn [obind].
      * destruct E as (u & g2 & E & ->). eexists u, _. split; [exact E |].
        exists (fst x), (snd x). split; [reflexivity |]. destruct x; reflexivity.
      * exact E.
    + cbn [obind]. apply agrees_ret. eexists _, _. split; reflexivity.
  - eapply agrees_step with (g' := g); [unfold update; repeat f_equal; rewrite <- N; destruct g; reflexivity |].
    destruct i as [i |]; cbn [optionally].
    + pose proof (intervals_agree i g) as E.
      pose proof (intervals_of_any (g_lat_interval g, g_lon_interval g) (d_lat_interval (g_pp g), d_lon_interval (g_pp g)) i) as H.
      destruct (intervals_of (g_lat_interval g, g_lon_interval g) i) as [x |];
        destruct (intervals_of (d_lat_interval (g_pp g), d_lon_interval (g_pp g)) i) as [y |]; cbn [obind].
      * destruct E as (u & g2 & E & ->). eexists u, _. split; [exact E |].
        exists (fst x), (snd x). split; [| exact I]. f_equal. f_equal. rewrite <- N. destruct g; reflexivity.
      * destruct H as [_ H]. discriminate (H eq_refl).
      * destruct H as [H _]. discriminate (H eq_refl).
      * exact E.
    + apply agrees_ret. exists (g_lat_interval g), (g_lon_interval g). split; [| exact I].
      rewrite <- N. destruct g; reflexivity.
  - apply agrees_ret. exists (g_lat_interval g), (g_lon_interval g). split; [| exact I].
    rewrite <- N. destruct g; reflexivity.
Qed.

Definition when_some {A B} (o : option A) (f : A -> B -> option B) (b : B) : option B :=
  match o with Some a => f a b | None => Some b end.

Lemma params_step {A} (o : option A) (f : A -> params -> params) p g :
  optionally o (fun a => a_params (fun p => ret (f a p))) (set_params (Some p) g) =
  Ok (Some (tt, set_params (Some (when o f p)) g)).
Proof. destruct o; reflexivity. Qed.

Lemma params_twice p q g : set_params p (set_params q g) = set_params p g.
Proof. reflexivity. Qed.

Lemma params_one (f : params -> params) p g :
  a_params (fun p => ret (f p)) (set_params (Some p) g) = Ok (Some (tt, set_params (Some (f p)) g)).
Proof. reflexivity. Qed.

Lemma params_each {A} (f : A -> params -> params) l p g :
  each (fun a => a_params (fun p => ret (f a p))) l (set_params (Some p) g) =
  Ok (Some (tt, set_params (Some (fold_left (fun p a => f a p) l p)) g)).
Proof.
  revert p. induction l as [| a l IH]; intros p; [reflexivity |].
  cbn [each fold_left]. rewrite <- IH. reflexivity.
Qed.

Lemma each_cons {A} (f : A -> act unit) a l (k : unit -> act unit) g :
  andthen (f a) (fun _ => andthen (each f l) k) g = andthen (each f (a :: l)) k g.
Proof. cbn [each]. unfold andthen. destruct (f a g) as [[[u g'] |] | |]; reflexivity. Qed.

(** The parameters before and after the body. *)
Definition params_early (m : map_entry) : params :=
  let p := Params 0 0 (fun _ => EmptyString) (fun _ => None) None [] [] [] (fun _ => false) in
  let p := when (me_author m) (set_str k_author) p in
  let p := when (me_origin m) (set_str k_origin) p in
  let p := fold_left (fun p s => push_comment s p) (me_comments m) p in
  let p := fold_left (fun p s => push_xcomment s p) (me_xcomments m) p in
  set_str k_object (me_body m) p.
Definition params_late (m : map_entry) (p : params) : option params :=
  let p := when (me_offset m) (fun x => set_dbl k_bzero (Some x)) p in
  let p := when (me_scale m) (fun x => set_dbl k_bscale (Some x)) p in
  do p <- match me_type m with Some t => done (set_bitpix t p) | None => Some p end;
  match me_blank m with Some n => kept (data_blank n p) | None => Some p end.
Lemma params_parts m : params_of m = params_late m (params_early m).
Proof. reflexivity. Qed.

Definition count_of (o : option number) : option Z := match o with Some n => kept (positive_size n) | None => Some 0 end.

(** The command of a map and the latitude type afterwards. *)
Definition ordered_map (d : defaults) (gl : bool) (m : map_entry) : option (map_command * bool) :=
  do b <- done (body_spheroid (me_prograde m) (me_radii m));
  do p <- params_late m (params_early m);
  do g <- grid_says d m;
  do x <- ordered_projection b gl (me_projection m);
  do np <- count_of (me_planes m);
  do s <- kept (positive_size (me_samples m));
  do l <- kept (positive_size (me_lines m));
  do i <- ordered_planes d b (or_else (average_given (me_projection m)) AVG_WEIGHTED) np 1 (snd x) (me_plane m :: me_more_planes m);
  if (0 <? np) && negb (Z.of_nat (List.length (fst i)) =? np) then None
  else Some (MapCommand (me_file m) s l (fst x) p g (fst i), snd i).

(** Between maps. *)
Record ready (d : defaults) (gl : bool) (g : globals) : Prop := Ready {
  r_pp : g_pp g = d;
  r_clean : clean (g_val g);
  r_photos : g_photo_factories g = [];
  r_center : oc_geometry (g_ortho_center g) = DEFAULT;
  r_north : g_north_pole g = true;
  r_type : g_graphic_lat g = gl }.

Lemma ready_new : ready defaults_new false globals_new.
Proof. constructor; try reflexivity. exact clean_new. Qed.

Definition start (file : string) (g : globals) : globals :=
  set_expected_plane 1 (set_num_planes 0 (set_averaging AVG_WEIGHTED (set_image_factories [] (set_create_grid false (set_filename file g))))).

Lemma bind_no_ub {A B} (x : outcome A) (f : A -> outcome B) u :
  (forall v, x <> UB v) -> (forall a v, f a <> UB v) -> bind x f <> UB u.
Proof. intros H K. destruct x as [a | e | v]; cbn [bind]; [apply K | discriminate |]. exfalso. exact (H v eq_refl). Qed.

Lemma spheroid_no_ub pro e u : body_spheroid (A := ar_double) pro e <> UB u.
Proof.
  apply bind_no_ub.
  - intros v. apply bind_no_ub; [| discriminate].
    intros w. unfold radii_validate. destruct (_ <? 2); [discriminate |].
    match goal with |- (if a_lt ar_double (eq_rad ?x) _ then _ else _) <> _ => destruct (a_lt ar_double (eq_rad x) (pol_rad x)) end; discriminate.
  - intros r v. apply bind_no_ub.
    + intros w. unfold validate_radius. destruct (_ || _); discriminate.
    + intros x w. apply bind_no_ub.
      * intros w'. unfold validate_radius. destruct (_ || _); discriminate.
      * intros y w'. destruct (a_lt ar_double (fst r) (snd r)); discriminate.
Qed.

Lemma map_agrees m d gl g : ready d gl g ->
  agrees (a_map m g) (ordered_map d gl m)
    (fun _ r g' => ready d (snd r) g' /\ g_commands g' = g_commands g ++ [fst r]).
Proof.
  intros [RP RC RF RO RN RT]. unfold Parse_Model.a_map, ordered_map.
  set (p0 := Params 0 0 (fun _ => EmptyString) (fun _ => None) None [] [] [] (fun _ => false)).
  set (G := start (me_file m) g).
  eapply agrees_step with (a := tt) (g' := set_params (Some p0) G); [reflexivity |].
  eapply agrees_step; [apply params_step |].
  eapply agrees_step; [apply params_step |].
  eapply agrees_step; [apply params_each |].
  eapply agrees_step; [apply params_each |].
  match goal with |- agrees (andthen _ _ (set_params (Some ?q) G)) _ _ => set (q1 := q) end.
  eapply agrees_bind with (R := fun _ b g' => g' = set_body (Some b) (set_params (Some (params_early m)) G)).
  { unfold a_body. eapply agrees_step; [apply params_one |].
    assert (Q : set_str k_object (me_body m) q1 = params_early m) by reflexivity.
    rewrite Q. clear Q. clearbody q1. generalize (params_early m). intros q0.
    destruct (body_spheroid (me_prograde m) (me_radii m)) as [b | e | u] eqn:E.
    - eexists tt, _. split; [reflexivity |]. reflexivity.
    - right. exists e. reflexivity.
    - exfalso. exact (spheroid_no_ub _ _ _ E). }
  intros _ b g1 _ ->. clearbody q1. clear q1.
  set (G1 := set_body (Some b) G). change (set_body (Some b) (set_params (Some (params_early m)) G)) with (set_params (Some (params_early m)) G1).
  eapply agrees_step; [apply (params_step (me_offset m) (fun x => set_dbl k_bzero (Some x))) |].
  eapply agrees_step; [apply (params_step (me_scale m) (fun x => set_dbl k_bscale (Some x))) |].
  unfold params_late. generalize (params_early m). intros q0. match goal with |- agrees (andthen _ _ (set_params (Some ?q) G1)) _ _ => set (q1 := q) end.
  clearbody q1. clear q0.
  rewrite <- Obind_assoc.
  eapply agrees_bind with (R := fun _ q g' => g' = set_params (Some q) G1).
  { destruct (me_type m) as [t |]; cbn [optionally].
    - unfold a_params. eapply agrees_step; [reflexivity |]. cbn beta.
      unfold set_bitpix. destruct (valid_bitpix t); cbn [done].
      + eapply agrees_step; [reflexivity |]. apply agrees_update. apply params_twice.
      + right. exists invalid_argument. reflexivity.
    - apply agrees_ret. reflexivity. }
  intros _ q2 g1 _ ->. clear q1.
  eapply agrees_bind with (R := fun _ q g' => g' = set_params (Some q) G1).
  { destruct (me_blank m) as [n |]; cbn [optionally].
    - unfold a_params. eapply agrees_step; [reflexivity |].
      destruct (data_blank n q2) as [q3 | | e]; cbn [of_parsed kept].
      + eapply agrees_step; [reflexivity |]. apply agrees_update. apply params_twice.
      + left. reflexivity.
      + right. exists e. reflexivity.
    - apply agrees_ret. reflexivity. }
  intros _ q3 g1 _ ->. clear q2.
  set (G2 := set_params (Some q3) G1).
  rewrite <- RP. change (g_pp g) with (g_pp G2) at 1.
  eapply agrees_bind; [apply grid_agrees; reflexivity |].
  intros _ gr g1 _ (la & lo & -> & GR).
  set (G3 := set_lon_interval lo (set_lat_interval la (set_create_grid _ G2))).
  assert (E3 : G3 = prj G3 AVG_WEIGHTED true (g_val g) (g_ortho_center g) gl)
    by (rewrite <- RT, <- RN; destruct g; reflexivity).
  rewrite E3. eapply agrees_bind; [apply projection_agrees; [reflexivity | exact RC | exact RO] |].
  intros _ x g1 _ (v & c & Cv & Dc & ->).
  set (avg := or_else _ AVG_WEIGHTED).
  set (G4 := set_factory (Some (fst x)) (prj G3 avg true v c (snd x))).
  eapply agrees_bind with (R := fun _ np g' => g' = set_num_planes np G4).
  { unfold count_of. destruct (me_planes m) as [n |]; cbn [optionally].
    - destruct (positive_size n) as [z | | e]; cbn [of_parsed kept].
      + eapply agrees_step; [reflexivity |]. apply agrees_update. reflexivity.
      + left. reflexivity.
      + right. exists e. reflexivity.
    - apply agrees_ret. reflexivity. }
  intros _ np g1 _ ->.
  eapply agrees_bind; [apply agrees_parsed |]. intros ? s g1 _ [-> ->].
  eapply agrees_step; [reflexivity |].
  eapply agrees_bind; [apply agrees_parsed |]. intros ? l g1 _ [-> ->].
  eapply agrees_step; [reflexivity |].
  set (G5 := set_lines l (set_samples s (set_num_planes np G4))).
  rewrite each_cons.
  eapply agrees_bind.
  { apply (planes_agree b (me_plane m :: me_more_planes m) G5); [reflexivity | exact Cv | exact RF]. }
  intros _ i g1 _ (K1 & K2 & K3 & K4 & K5).
  change (g_image_factories G5) with (@nil image_factory) in K4. cbn [app] in K4.
  eapply agrees_step; [reflexivity |]. eapply agrees_step; [reflexivity |].
  rewrite K4. replace (g_num_planes g1) with np by (unfold stable in K2; symmetry; change np with (g_num_planes G5); congruence).
  destruct ((0 <? np) && negb (Z.of_nat (List.length (fst i)) =? np)); [left; reflexivity |].
  assert (S1 : g_filename g1 = me_file m) by (unfold stable in K2; change (me_file m) with (g_filename G5); congruence).
  assert (S2 : g_samples g1 = s) by (unfold stable in K2; change s with (g_samples G5); congruence).
  assert (S3 : g_lines g1 = l) by (unfold stable in K2; change l with (g_lines G5); congruence).
  assert (S4 : g_factory g1 = Some (fst x)) by (unfold stable in K2; change (Some (fst x)) with (g_factory G5); congruence).
  assert (S5 : g_params g1 = Some q3) by (unfold stable in K2; change (Some q3) with (g_params G5); congruence).
  assert (S6 : g_create_grid g1 = match gr with Some _ => true | None => false end)
    by (unfold stable in K2; change (g_create_grid g1 = g_create_grid G5); congruence).
  assert (S7 : g_lat_interval g1 = la) by (unfold stable in K2; change la with (g_lat_interval G5); congruence).
  assert (S8 : g_lon_interval g1 = lo) by (unfold stable in K2; change lo with (g_lon_interval G5); congruence).
  assert (S9 : g_commands g1 = g_commands g) by (unfold stable in K2; change (g_commands g) with (g_commands G5); congruence).
  assert (S10 : g_pp g1 = g_pp g) by (unfold stable in K2; change (g_pp g) with (g_pp G5); congruence).
  assert (S11 : g_ortho_center g1 = c) by (unfold stable in K2; change c with (g_ortho_center G5); congruence).
  assert (S12 : g_north_pole g1 = true) by (unfold stable in K2; change true with (g_north_pole G5); congruence).
  clear K2. do 3 (eapply agrees_step; [reflexivity |]).
  eapply agrees_step; [unfold deref; rewrite S4; reflexivity |].
  eapply agrees_step; [unfold deref; rewrite S5; reflexivity |].
  do 8 (eapply agrees_step; [reflexivity |]).
  apply agrees_update. cbn [fst snd]. split.
  - constructor; try assumption; cbn. 
    + rewrite S11. exact Dc.
  - cbn. rewrite S1, S2, S3, S6, S7, S8, S9. destruct gr as [x' |]; [rewrite GR |]; reflexivity.
Qed.
(** ** Numbers apart from the rest *)

Fixpoint sizes (np e : Z) (l : list plane_entry) : option Z :=
  match l with [] => Some e | p :: l => do e <- ordered_size np e (pe_number p); sizes np e l end.

Definition ordered_factory (d : defaults) (b : body) (avg : average) (gl : bool) (p : plane_entry) : option (image_factory * bool) :=
  do l <- limits_say d (pe_range p);
  do s <- ordered_source d b avg gl (pe_type p);
  Some (ImageFactory (fst s) l, snd s).
Fixpoint ordered_factories (d : defaults) (b : body) (avg : average) (gl : bool) (l : list plane_entry)
  : option (list image_factory * bool) :=
  match l with
  | [] => Some ([], gl)
  | p :: l =>
      do r <- ordered_factory d b avg gl p;
      do s <- ordered_factories d b avg (snd r) l;
      Some (fst r :: fst s, snd s)
  end.

Lemma planes_apart d b avg np l : forall e gl,
  ordered_planes d b avg np e gl l = do _ <- sizes np e l; ordered_factories d b avg gl l.
Proof.
  induction l as [| p l IH]; intros e gl; cbn [ordered_planes sizes ordered_factories]; [reflexivity |].
  unfold ordered_plane, ordered_factory, limits_say, limits_of.
  destruct (ordered_size np e (pe_number p)) as [e' |]; cbn [obind]; [| reflexivity].
  assert (N : forall A (o : option A), obind o (fun _ => @None (list image_factory * bool)) = None) by (destruct o; reflexivity).
  destruct (range_of (d_minimum d, d_maximum d) (pe_range p)) as [x |]; cbn [obind]; [| rewrite N; reflexivity].
  destruct (number_or_none (fst x) && number_or_none (snd x)); cbn [obind].
  - destruct (ordered_source d b avg gl (pe_type p)) as [s |]; cbn [obind fst snd]; [| rewrite N; reflexivity].
    rewrite IH. destruct (sizes np e' l); reflexivity.
  - destruct (ordered_source d b avg gl (pe_type p)) as [s |]; cbn [obind fst snd]; rewrite N; reflexivity.
Qed.

Lemma factories_length d b avg l : forall gl r, ordered_factories d b avg gl l = Some r -> List.length (fst r) = List.length l.
Proof.
  induction l as [| p l IH]; intros gl r; cbn [ordered_factories].
  - intros [= <-]. reflexivity.
  - destruct (ordered_factory d b avg gl p) as [f |]; cbn [obind]; [| discriminate].
    destruct (ordered_factories d b avg (snd f) l) as [s |] eqn:E; cbn [obind]; [| discriminate].
    intros [= <-]. cbn. f_equal. apply (IH _ _ E).
Qed.

Definition all_planes (m : map_entry) : list plane_entry := me_plane m :: me_more_planes m.

(** The map without its numbers. *)
Definition ordered_body (d : defaults) (gl : bool) (m : map_entry) : option (map_command * bool) :=
  do b <- done (body_spheroid (me_prograde m) (me_radii m));
  do p <- params_of m;
  do g <- grid_says d m;
  do x <- ordered_projection b gl (me_projection m);
  do s <- kept (positive_size (me_samples m));
  do l <- kept (positive_size (me_lines m));
  do i <- ordered_factories d b (average_of (me_projection m)) (snd x) (all_planes m);
  Some (MapCommand (me_file m) s l (fst x) p g (fst i), snd i).

Definition numbersb (m : map_entry) : bool :=
  match count_of (me_planes m) with
  | Some np =>
      match sizes np 1 (all_planes m) with
      | Some _ => negb ((0 <? np) && negb (plane_count m =? np))
      | None => false
      end
  | None => false
  end.

Lemma average_same p : or_else (average_given p) AVG_WEIGHTED = average_of p.
Proof. destruct p as [[[|] |] | [[[|] ?] |] | [[[[|] ?] ?] |] | [[[[[|] ?] ?] ?] |]]; reflexivity. Qed.

Lemma map_apart d gl m : ordered_map d gl m = if numbersb m then ordered_body d gl m else None.
Proof.
  unfold ordered_map, ordered_body, numbersb. rewrite <- params_parts, average_same.
  assert (N : forall A B (o : option A), obind o (fun _ => @None B) = None) by (destruct o; reflexivity).
  destruct (done (body_spheroid (me_prograde m) (me_radii m))) as [b |]; cbn [obind]; [| destruct (count_of _); [destruct (sizes _ _ _); [destruct (negb _) |] |]; reflexivity].
  destruct (params_of m) as [p |]; cbn [obind]; [| destruct (count_of _); [destruct (sizes _ _ _); [destruct (negb _) |] |]; reflexivity].
  destruct (grid_says d m) as [g |]; cbn [obind]; [| destruct (count_of _); [destruct (sizes _ _ _); [destruct (negb _) |] |]; reflexivity].
  destruct (ordered_projection b gl (me_projection m)) as [x |]; cbn [obind]; [| destruct (count_of _); [destruct (sizes _ _ _); [destruct (negb _) |] |]; reflexivity].
  destruct (count_of (me_planes m)) as [np |]; cbn [obind]; [| reflexivity].
  destruct (kept (positive_size (me_samples m))) as [s |]; cbn [obind]; [| destruct (sizes _ _ _); [destruct (negb _) |]; reflexivity].
  destruct (kept (positive_size (me_lines m))) as [l |]; cbn [obind]; [| destruct (sizes _ _ _); [destruct (negb _) |]; reflexivity].
  rewrite planes_apart. fold (all_planes m). destruct (sizes np 1 (all_planes m)) as [e |]; cbn [obind]; [| reflexivity].
  destruct (ordered_factories d b (average_of (me_projection m)) (snd x) (all_planes m)) as [i |] eqn:E; cbn [obind].
  - apply factories_length in E. rewrite E. unfold plane_count, all_planes. cbn [List.length].
    destruct ((0 <? np) && negb (Z.of_nat (S (List.length (me_more_planes m))) =? np)); reflexivity.
  - destruct (negb _); reflexivity.
Qed.

Lemma factories_strip d b avg l : forall gl, ordered_factories d b avg gl (map strip_plane l) = ordered_factories d b avg gl l.
Proof.
  induction l as [| p l IH]; intros gl; [reflexivity |]. cbn [map ordered_factories].
  unfold ordered_factory, strip_plane at 1 2. cbn [pe_range pe_type].
  destruct (limits_say d (pe_range p)); cbn [obind]; [| reflexivity].
  destruct (ordered_source d b avg gl (pe_type p)); cbn [obind snd]; [| reflexivity].
  rewrite IH. reflexivity.
Qed.

Lemma body_strip d gl m : ordered_body d gl (strip m) = ordered_body d gl m.
Proof.
  unfold ordered_body, all_planes.
  change (me_plane (strip m) :: me_more_planes (strip m)) with (map strip_plane (me_plane m :: me_more_planes m)).
  change (params_of (strip m)) with (params_of m). change (grid_says d (strip m)) with (grid_says d m). cbn [strip me_prograde me_radii me_projection me_samples me_lines me_file].
  destruct (done _); cbn [obind]; [| reflexivity].
  destruct (params_of m); cbn [obind]; [| reflexivity].
  destruct (grid_says d m); cbn [obind]; [| reflexivity].
  destruct (ordered_projection _ gl (me_projection m)); cbn [obind]; [| reflexivity].
  destruct (kept (positive_size (me_samples m))); cbn [obind]; [| reflexivity].
  destruct (kept (positive_size (me_lines m))); cbn [obind]; [| reflexivity].
  rewrite factories_strip. reflexivity.
Qed.

Lemma numbers_strip m : numbersb (strip m) = true.
Proof.
  unfold numbersb. cbn [strip me_planes count_of].
  assert (S : forall l e, sizes 0 e (map strip_plane l) = Some e) by (induction l; intros e; cbn; auto).
  change (all_planes (strip m)) with (map strip_plane (all_planes m)). rewrite S. reflexivity.
Qed.

(** *** The numbers *)
Lemma integer_range n z : integer n = Parsed z -> - 2 ^ 63 <= z < 2 ^ 63.
Proof.
  unfold integer. destruct (n_digits n); [discriminate |].
  set (v := match n_sign n with Some true => _ | _ => _ end).
  destruct (Z.leb_spec (- 2 ^ 63) v), (Z.leb_spec v (2 ^ 63 - 1)); cbn; try discriminate.
  intros [= <-]. lia.
Qed.

Lemma wrap_same z : 0 <= z < 2 ^ 64 -> wrap z = z.
Proof. intros H. unfold wrap, size_mod. apply Z.mod_small. exact H. Qed.

Definition numbers_in (l : list plane_entry) : list number := flat_map (fun p => match pe_number p with Some n => [n] | None => [] end) l.
Definition read_numbers (l : list number) : option (list Z) := all_some (fun n => kept (integer n)) l.

(** Counting up with an announced number of planes. *)
Lemma sizes_read np l : forall e, 1 <= e <= np + 1 -> np < 2 ^ 63 ->
  (sizes np e l <> None <-> exists z, read_numbers (numbers_in l) = Some z /\ z = count_up e (List.length z) /\ e + Z.of_nat (List.length z) <= np + 1).
Proof.
  unfold read_numbers. induction l as [| p l IH]; intros e He Hn; cbn [sizes numbers_in flat_map].
  - cbn. split; [| discriminate]. intros _. exists []. cbn. repeat split; try reflexivity. lia.
  - change (flat_map _ l) with (numbers_in l). unfold ordered_size. destruct (pe_number p) as [n |]; cbn [obind app all_some].
    + destruct (integer n) as [z | | ] eqn:I; cbn [kept obind].
      2, 3: split; [congruence | intros (? & [=] & _)].
      apply integer_range in I.
      destruct (Z.eqb_spec np 0) as [-> | N0].
      { cbn [obind]. split; [congruence |]. intros (w & W & C & K). exfalso.
        destruct (all_some _ (numbers_in l)) as [r |]; cbn in W; [| discriminate]. injection W as <-. cbn in K. lia. }
      assert (Wz : wrap z = e -> e <= np -> z = e).
      { intros W L. unfold wrap, size_mod in W. destruct (Z.leb_spec 0 z) as [P | P].
        - rewrite Z.mod_small in W by lia. exact W.
        - exfalso. assert (W' : z mod 2 ^ 64 = z + 2 ^ 64) by (symmetry; apply (Z.mod_unique _ _ (-1)); lia). lia. }
      destruct (Z.eqb_spec (wrap z) e) as [W | W]; cbn [andb]; [destruct (Z.leb_spec (wrap z) np) as [L | L] |].
      * assert (z = e) by (apply Wz; lia). subst z. rewrite (wrap_same (e + 1)) by lia. cbn [obind].
        rewrite IH by lia. split.
        -- intros (w & R & C & K). exists (e :: w). rewrite R. cbn [obind List.length count_up]. split; [reflexivity |].
           split; [congruence | lia].
        -- intros (w & R & C & K). destruct (all_some _ (numbers_in l)) as [r |]; cbn in R; [| discriminate].
           injection R as <-. cbn [List.length count_up] in C, K. injection C as C. exists r. split; [reflexivity |]. split; [exact C | lia].
      * cbn [obind]. split; [congruence |]. intros (w & R & C & K). exfalso.
        destruct (all_some _ (numbers_in l)) as [r |]; cbn in R; [| discriminate].
        injection R as <-. cbn [List.length count_up] in C, K. injection C as C' C. subst z. rewrite (wrap_same e) in L by lia. lia.
      * cbn [obind]. split; [congruence |]. intros (w & R & C & K). exfalso.
        destruct (all_some _ (numbers_in l)) as [r |]; cbn in R; [| discriminate].
        injection R as <-. cbn [List.length count_up] in C, K. injection C as C' C. subst z. rewrite (wrap_same e) in W by lia. congruence.
    + apply IH; assumption.
Qed.

Lemma sizes_none l : forall e, sizes 0 e l <> None <-> numbers_in l = [].
Proof.
  induction l as [| p l IH]; intros e; cbn [sizes numbers_in flat_map].
  - split; [reflexivity | discriminate].
  - change (flat_map _ l) with (numbers_in l). unfold ordered_size. destruct (pe_number p) as [n |]; cbn [obind app].
    + split; [| discriminate]. destruct (integer n); cbn; congruence.
    + apply IH.
Qed.

Lemma numbers_in_length l : (List.length (numbers_in l) <= List.length l)%nat.
Proof. induction l as [| p l IH]; cbn; [lia |]. rewrite app_length. destruct (pe_number p); cbn; unfold numbers_in in IH; lia. Qed.

Lemma numbers_numbered m : numbersb m = true <-> numbered m.
Proof.
  unfold numbersb, numbered, written_numbers. fold (all_planes m).
  change (flat_map _ (all_planes m)) with (numbers_in (all_planes m)).
  change (all_some _ (numbers_in (all_planes m))) with (read_numbers (numbers_in (all_planes m))).
  assert (PC : plane_count m = Z.of_nat (List.length (all_planes m))) by reflexivity.
  destruct (me_planes m) as [n |]; cbn [count_of].
  - unfold positive_size. destruct (integer n) as [np | | e] eqn:I; cbn [pbind kept].
    2, 3: split; [discriminate | intros (l & _ & [=] & _)].
    pose proof (integer_range _ _ I) as RI.
    destruct (Z.ltb_spec 0 np) as [P | P]; cbn [kept].
    + pose proof (sizes_read np (all_planes m) 1 ltac:(lia) ltac:(lia)) as S.
      rewrite (proj2 (Z.ltb_lt 0 np) P). cbn [andb]. rewrite negb_involutive.
      destruct (sizes np 1 (all_planes m)) as [e |].
      * destruct S as [S _]. destruct S as (z & R & C & K); [discriminate |].
        split.
        -- intros E. apply Z.eqb_eq in E. exists z. split; [exact R |]. split; [congruence | exact C].
        -- intros (l & R' & E & _). apply Z.eqb_eq. congruence.
      * split; [discriminate |]. intros (l & R & E & C). exfalso.
        destruct S as [_ S]. apply S; [| reflexivity]. exists l. split; [exact R |]. split; [exact C |].
        injection E as E. apply all_some_length in R. pose proof (numbers_in_length (all_planes m)). lia.
    + split; [discriminate |]. intros (l & _ & E & _). exfalso. injection E as E. unfold plane_count in E. lia.
  - pose proof (sizes_none (all_planes m) 1) as S. cbn [Z.ltb Z.compare andb negb].
    destruct (sizes 0 1 (all_planes m)) as [e |].
    + split; [intros _ | reflexivity]. destruct S as [S _]. rewrite S by discriminate. exists []. split; reflexivity.
    + split; [discriminate |]. intros (l & R & ->). exfalso. destruct S as [_ S]. apply S; [| reflexivity].
      destruct (numbers_in (all_planes m)) as [| a r] eqn:E; [reflexivity |]. exfalso. revert R. unfold read_numbers. cbn.
      destruct (kept (integer a)); cbn; [| discriminate]. destruct (all_some _ r); discriminate.
Qed.

(** ** Latitude types apart *)

Fixpoint after (gl : bool) (l : list mention) : bool :=
  match l with
  | [] => gl
  | by_projection _ :: l => after false l
  | by_plane k :: l => after (latitude_type gl k) l
  end.

Lemma settled_app l1 l2 : forall gl, settled gl (l1 ++ l2) <-> settled gl l1 /\ settled (after gl l1) l2.
Proof.
  induction l1 as [| [[k |] | [[] |]] l1 IH]; intros gl; cbn [app settled after latitude_type]; rewrite ?IH; try tauto.
  split; [intros (-> & H); tauto | intros ((-> & H) & K); tauto].
Qed.

Lemma settled_false l : settled true l -> settled false l.
Proof. destruct l as [| [[k |] | [[] |]] l]; cbn; tauto. Qed.

Lemma factories_settled d b avg l : forall gl, settled gl (flat_map plane_mentions l) ->
  ordered_factories d b avg gl l = option_map (fun r => (r, after gl (flat_map plane_mentions l))) (all_some (plane_of d b avg) l).
Proof.
  induction l as [| p l IH]; intros gl; cbn [flat_map ordered_factories all_some]; [reflexivity |].
  intros S. apply settled_app in S. destruct S as [S1 S2].
  assert (F : ordered_factory d b avg gl p = option_map (fun r => (r, after gl (plane_mentions p))) (plane_of d b avg p)).
  { unfold ordered_factory, Parse_Spec.plane_of. destruct (limits_say d (pe_range p)) as [e |]; cbn [obind]; [| reflexivity].
    unfold plane_mentions in *. destruct (pe_type p) as [? ? | ? ? ? | ? ? | ? ? ? | k |]; cbn [ordered_source].
    all: try (destruct (source_of d b avg _); reflexivity).
    cbn [Parse_Spec.source_of obind fst snd option_map after settled latitude_type] in *.
    destruct k as [[] |]; cbn in *; try reflexivity. destruct S1 as [-> _]. reflexivity. }
  rewrite F. destruct (plane_of d b avg p) as [f |]; cbn [option_map obind fst snd]; [| reflexivity].
  rewrite IH by exact S2. destruct (all_some (plane_of d b avg) l) as [r |]; cbn [option_map obind fst snd]; [| reflexivity].
  f_equal. f_equal.
  assert (A : forall l1 l2 x, after x (l1 ++ l2) = after (after x l1) l2)
    by (induction l1 as [| [k | k] l1 IH1]; intros; cbn; auto).
  symmetry. apply A.
Qed.

Lemma projection_settled b gl p :
  settled gl (match p with T_simple_c (Some (_, k, _, _)) => [by_projection k] | T_simple_c None => [by_projection None] | _ => [] end) ->
  ordered_projection b gl p = option_map (fun x => (x, after gl (match p with T_simple_c (Some (_, k, _, _)) => [by_projection k] | T_simple_c None => [by_projection None] | _ => [] end))) (projection_of b p).
Proof.
  intros S. unfold ordered_projection, Parse_Spec.projection_of.
  destruct p as [o | o | o | o].
  1, 2, 3: cbn [ordered_args after]; destruct (projection_args b _) as [x |]; cbn [obind fst option_map]; [destruct (nothing_thrown _) |]; reflexivity.
  destruct o as [[[[q k] lats] lons] |]; cbn [ordered_args Parse_Spec.projection_args after].
  - destruct (optional lats (lat_range_of b)); cbn [obind]; [| reflexivity].
    destruct (optional lons (lon_range_of b)); cbn [obind]; [| reflexivity].
    replace (latitude_type gl k) with (is_graphic k)
      by (destruct k as [[] |]; cbn in *; try reflexivity; destruct S as [-> _]; reflexivity).
    cbn [fst]. destruct (nothing_thrown _); reflexivity.
  - cbn in S. destruct S as [-> _]. cbn [obind fst]. destruct (nothing_thrown _); reflexivity.
Qed.

Lemma body_settled d gl m : settled gl (mentions m) ->
  ordered_body d gl m = option_map (fun c => (c, after gl (mentions m))) (map_body d m).
Proof.
  unfold mentions. set (pm := match me_projection m with T_mercator _ => _ | _ => _ end).
  intros S. apply settled_app in S. destruct S as [S1 S2].
  assert (A : forall l1 l2 x, after x (l1 ++ l2) = after (after x l1) l2)
    by (induction l1 as [| [k | k] l1 IH1]; intros; cbn; auto).
  unfold ordered_body, Parse_Spec.map_body. fold (all_planes m). fold (all_planes m) in S2.
  destruct (params_of m) as [p |]; cbn [obind]; [| destruct (done _); reflexivity].
  destruct (done (body_spheroid (me_prograde m) (me_radii m))) as [b |]; cbn [obind]; [| reflexivity].
  destruct (grid_says d m) as [g |]; cbn [obind]; [| reflexivity].
  rewrite (projection_settled b gl (me_projection m) S1). fold pm.
  destruct (projection_of b (me_projection m)) as [x |]; cbn [obind option_map]; [| reflexivity].
  destruct (kept (positive_size (me_samples m))) as [s |]; cbn [obind]; [| reflexivity].
  destruct (kept (positive_size (me_lines m))) as [l |]; cbn [obind]; [| reflexivity].
  cbn [fst snd]. rewrite factories_settled by exact S2.
  destruct (all_some _ (all_planes m)) as [i |]; cbn [obind option_map fst snd]; [| reflexivity].
  rewrite A. reflexivity.
Qed.

(** ** Maps in turn *)

Fixpoint ordered_maps (d : defaults) (gl : bool) (l : list map_entry) : option (list map_command * bool) :=
  match l with
  | [] => Some ([], gl)
  | m :: l =>
      do r <- ordered_map d gl m;
      do s <- ordered_maps d (snd r) l;
      Some (fst r :: fst s, snd s)
  end.

Lemma maps_agree d l : forall gl g, ready d gl g ->
  agrees (each a_map l g) (ordered_maps d gl l)
    (fun _ r g' => ready d (snd r) g' /\ g_commands g' = g_commands g ++ fst r).
Proof.
  induction l as [| m l IH]; intros gl g R; cbn [each ordered_maps].
  - apply agrees_ret. cbn. rewrite app_nil_r. auto.
  - eapply agrees_bind; [apply map_agrees; exact R |]. intros _ r g1 _ [R1 C1].
    specialize (IH _ _ R1). destruct (ordered_maps d (snd r) l) as [s |]; cbn [obind]; [| exact IH].
    destruct IH as (u & g2 & E & R2 & C2). exists u, g2. split; [exact E |]. split; [exact R2 |].
    rewrite C2, C1, <- app_assoc. reflexivity.
Qed.

Lemma maps_of_app d l1 : forall l2 gl,
  ordered_maps d gl (l1 ++ l2) = do r <- ordered_maps d gl l1; do s <- ordered_maps d (snd r) l2; Some (fst r ++ fst s, snd s).
Proof.
  induction l1 as [| m l1 IH]; intros l2 gl; cbn [app ordered_maps obind fst snd].
  - destruct (ordered_maps d gl l2) as [[c b] |]; reflexivity.
  - destruct (ordered_map d gl m) as [r |]; cbn [obind]; [| reflexivity]. rewrite IH.
    destruct (ordered_maps d (snd r) l1) as [s |]; cbn [obind fst snd]; [| reflexivity].
    destruct (ordered_maps d (snd s) l2); reflexivity.
Qed.

Lemma texts_agree d ts : forall gl g, ready d gl g ->
  agrees (each a_file (texts_of ts) g) (ordered_maps d gl (maps_of ts))
    (fun _ r g' => ready d (snd r) g' /\ g_commands g' = g_commands g ++ fst r).
Proof.
  induction ts as [| [m more] ts IH]; intros gl g R; cbn [texts_of map each].
  - apply agrees_ret. cbn. rewrite app_nil_r. auto.
  - change (maps_of ((m, more) :: ts)) with ((m :: more) ++ maps_of ts). rewrite maps_of_app.
    eapply agrees_bind.
    { change (a_file (map_text (fst (m, more)) (snd (m, more)))) with (each a_map (m :: more)). apply maps_agree. exact R. }
    intros _ r g1 _ [R1 C1]. specialize (IH _ _ R1). unfold texts_of in IH.
    destruct (ordered_maps d (snd r) (maps_of ts)) as [s |]; cbn [obind]; [| exact IH].
    destruct IH as (u & g2 & E & R2 & C2). exists u, g2. split; [exact E |]. split; [exact R2 |].
    rewrite C2, C1, <- app_assoc. reflexivity.
Qed.

(** *** The user file *)

(** The defaults after a user file that is read first. *)
Definition user_nibbles (d : nibbles) (l : nibbling) : option nibbles :=
  do v <- all_some nibble_given l; Some (fold_left (fun b e => put_side (fst e) (snd e mod 2 ^ 32) b) v d).
Definition user_does (u : user_entry) : option defaults :=
  do i <- intervals_of (double_of_Z 0, double_of_Z 0) (ue_intervals u);
  do r <- range_of (None, None) (ue_range u);
  do n <- user_nibbles (d_nibbles defaults_new) (ue_nibbling u);
  Some (Defaults (fst i) (snd i) None None n).

Definition with_nibbles (n : nibbles) (g : globals) : globals :=
  set_pp (Defaults (d_lat_interval (g_pp g)) (d_lon_interval (g_pp g)) (d_minimum (g_pp g)) (d_maximum (g_pp g)) n) g.

Lemma user_nibbles_agree l : forall g, g_photo_parameters g = None ->
  agrees (each a_nibble l g) (user_nibbles (d_nibbles (g_pp g)) l) (fun _ n g' => g' = with_nibbles n g).
Proof.
  unfold user_nibbles. induction l as [| e l IH]; intros g N; cbn [each all_some].
  - apply agrees_ret. cbn. unfold with_nibbles. destruct g as [? ? ? ? ? ? ? ? ? ? ? ? ? ? ? ? ? ? ? ? ? ? ? ? [] ?]; reflexivity.
  - unfold nibble_given at 1. unfold a_nibble at 1.
    destruct (nibble_size (snd e)) as [n | | x]; cbn [of_parsed kept obind fst snd].
    + set (g1 := with_nibbles (put_side (fst e) (n mod 2 ^ 32) (d_nibbles (g_pp g))) g).
      eapply agrees_step with (a := tt) (g' := g1).
      { unfold andthen at 1. cbn [ret]. unfold andthen at 1, read at 1. rewrite N. reflexivity. }
      specialize (IH g1 N). cbn [g1 with_nibbles set_pp g_pp d_nibbles] in IH.
      destruct (all_some nibble_given l) as [v |]; cbn [obind fold_left fst snd] in IH |- *; [| exact IH].
      destruct IH as (u & g2 & E & ->). eexists u, _. split; [exact E |]. reflexivity.
    + left. reflexivity.
    + right. exists x. reflexivity.
Qed.

Lemma user_agrees u :
  agrees (Parse_Model.a_user u globals_new) (user_does u)
    (fun _ d g' => ready d false g' /\ g_commands g' = []).
Proof.
  unfold Parse_Model.a_user, user_does.
  eapply agrees_bind; [apply intervals_agree |]. intros _ i g1 _ ->.
  eapply agrees_bind; [apply data_range_agrees |]. intros _ r g1 _ ->.
  eapply agrees_bind; [apply user_nibbles_agree; reflexivity |]. intros _ n g1 _ ->.
  do 5 (eapply agrees_step; [reflexivity |]). apply agrees_update. split; [| reflexivity].
  constructor; try reflexivity.
  - destruct r as [[mi |] [ma |]]; reflexivity.
  - exact clean_new.
Qed.

(** The defaults in force for the maps of a run. *)
Definition defaults_after (u : option user_entry) : option defaults :=
  match u with Some u => user_does u | None => Some defaults_new end.

Lemma run_agrees u ts cmds :
  run_parser (texts u ts) = Ok (Some cmds) <->
  exists d gl, defaults_after u = Some d /\ ordered_maps d false (maps_of ts) = Some (cmds, gl).
Proof.
  assert (H : agrees (each a_file (texts u ts) globals_new)
     (do d <- defaults_after u; ordered_maps d false (maps_of ts)) (fun _ r g' => g_commands g' = fst r)).
  { unfold texts. destruct u as [u |]; cbn [app each defaults_after].
    - eapply agrees_bind; [apply user_agrees |]. intros _ d g1 _ [R C].
      eapply agrees_weaken; [apply texts_agree; exact R |]. intros _ r g' _ [_ E]. rewrite E, C. reflexivity.
    - cbn [obind]. eapply agrees_weaken; [apply texts_agree; exact ready_new |]. intros _ r g' _ [_ E]. exact E. }
  unfold Parse_Model.run_parser, a_files.
  destruct (defaults_after u) as [d |]; cbn [obind] in H.
  - destruct (ordered_maps d false (maps_of ts)) as [[c gl] |] eqn:Em.
    + destruct H as ([] & g & E & C). rewrite E. cbn in C. rewrite C. split.
      * intros [= <-]. exists d, gl. rewrite Em. auto.
      * intros (d' & gl' & [= <-] & E'). congruence.
    + destruct H as [E | [e E]]; rewrite E; (split; [discriminate |]); intros (d' & gl' & [= <-] & E'); congruence.
  - destruct H as [E | [e E]]; rewrite E; (split; [discriminate |]); intros (d' & gl' & [=] & E').
Qed.

(** ** C68 *)
Lemma maps_strip d l : forall gl r,
  ordered_maps d gl l = Some r <-> Forall numbered l /\ ordered_maps d gl (map strip l) = Some r.
Proof.
  induction l as [| m l IH]; intros gl r; cbn [map ordered_maps].
  - split; [intros H; split; [constructor | exact H] | tauto].
  - rewrite !map_apart, numbers_strip, body_strip.
    destruct (numbersb m) eqn:N.
    + destruct (ordered_body d gl m) as [c |]; cbn [obind].
      * pose proof (IH (snd c)) as IHc. destruct (ordered_maps d (snd c) l) as [s |] eqn:E; cbn [obind].
        -- destruct (proj1 (IHc s) eq_refl) as [F ->]. cbn [obind]. split.
           ++ intros [= <-]. split; [| reflexivity]. constructor; [apply numbers_numbered; exact N | exact F].
           ++ intros [_ H]. exact H.
        -- split; [discriminate |]. intros [F H]. inversion_clear F as [| ? ? F1 F2].
           destruct (ordered_maps d (snd c) (map strip l)) as [s' |]; [| discriminate].
           destruct (IHc s') as [_ K]. discriminate (K (conj F2 eq_refl)).
      * split; [discriminate |]. intros [_ H]. exact H.
    + cbn [obind]. split; [discriminate |]. intros [F _]. inversion_clear F as [| ? ? F1 F2].
      apply numbers_numbered in F1. congruence.
Qed.

Lemma maps_of_strip ts : maps_of (strip_texts ts) = map strip (maps_of ts).
Proof.
  unfold maps_of, strip_texts. induction ts as [| [m more] ts IH]; [reflexivity |].
  cbn [map flat_map fst snd]. rewrite IH, map_app. reflexivity.
Qed.

Lemma numbers_decide u ts cmds :
  run_parser (texts u ts) = Ok (Some cmds) <->
  Forall numbered (maps_of ts) /\ run_parser (texts u (strip_texts ts)) = Ok (Some cmds).
Proof.
  rewrite !run_agrees. setoid_rewrite maps_of_strip. split.
  - intros (d & gl & D & E). apply maps_strip in E. destruct E as [F E]. split; [exact F |]. exists d, gl. auto.
  - intros (F & d & gl & D & E). exists d, gl. split; [exact D |]. apply maps_strip. auto.
Qed.

(** ** C67 *)
Lemma maps_settled d l : forall gl cmds, settled gl (flat_map mentions l) ->
  ((exists gl', ordered_maps d gl l = Some (cmds, gl')) <-> Forall2 (means d) l cmds).
Proof.
  induction l as [| m l IH]; intros gl cmds S; cbn [ordered_maps flat_map] in *.
  - split.
    + intros (gl' & [= <- _]). constructor.
    + intros H. inversion H. exists gl. reflexivity.
  - apply settled_app in S. destruct S as [S1 S2]. rewrite map_apart, (body_settled d gl m S1). split.
    + intros (gl' & E). destruct (numbersb m) eqn:N; cbn [obind] in E; [| discriminate].
      destruct (map_body d m) as [c |] eqn:B; cbn [option_map obind fst snd] in E; [| discriminate].
      destruct (ordered_maps d (after gl (mentions m)) l) as [[s gl1] |] eqn:O; cbn [obind fst snd] in E; [| discriminate].
      injection E as <- <-. constructor; [split; [exact B | apply numbers_numbered; exact N] |].
      apply (IH (after gl (mentions m)) s S2). exists gl1. exact O.
    + intros H. inversion H as [| ? c ? s [B N] F]. subst. apply numbers_numbered in N. rewrite N, B. cbn [option_map obind fst snd].
      apply (IH (after gl (mentions m)) s S2) in F. destruct F as (gl1 & ->). exists gl1. reflexivity.
Qed.

Lemma run_means u ts cmds : unmixed ts ->
  run_parser (texts u ts) = Ok (Some cmds) <->
  exists d, defaults_after u = Some d /\ Forall2 (means d) (maps_of ts) cmds.
Proof.
  intros U. rewrite run_agrees. split.
  - intros (d & gl & D & E). exists d. split; [exact D |]. apply (maps_settled d (maps_of ts) false cmds U). exists gl. exact E.
  - intros (d & D & F). apply (maps_settled d (maps_of ts) false cmds U) in F. destruct F as (gl & E). exists d, gl. auto.
Qed.

Lemma settled_each l : forall gl, settled gl (flat_map mentions l) -> Forall (fun m => settled false (mentions m)) l.
Proof.
  induction l as [| m l IH]; intros gl S; [constructor |]. cbn [flat_map] in S. apply settled_app in S. destruct S as [S1 S2].
  constructor; [destruct gl; [apply settled_false |]; exact S1 |]. exact (IH _ S2).
Qed.

Lemma run_alone u ts cmds : unmixed ts ->
  run_parser (texts u ts) = Ok (Some cmds) <->
  run_parser (texts u []) <> Ok None /\ (forall e, run_parser (texts u []) <> Throw e) /\
  Forall2 (fun m c => run_parser (texts u [(m, [])]) = Ok (Some [c])) (maps_of ts) cmds.
Proof.
  intros U. rewrite run_means by exact U.
  assert (NIL : defaults_after u <> None <-> run_parser (texts u []) <> Ok None /\ (forall e, run_parser (texts u []) <> Throw e)).
  { unfold Parse_Model.run_parser, a_files, texts. cbn [texts_of map]. rewrite app_nil_r.
    destruct u as [u |]; cbn [each defaults_after].
    - pose proof (user_agrees u) as E. cbn [each]. unfold andthen. cbn [Parse_Model.a_file].
      destruct (user_does u) as [d |].
      + destruct E as ([] & g & E & _ & _). rewrite E. cbn. split; [intros _; split; intros; discriminate | discriminate].
      + destruct E as [E | [e E]]; rewrite E; (split; [congruence |]); intros [H K]; exfalso; [apply H | apply (K e)]; reflexivity.
    - cbn. split; [intros _; split; intros; discriminate | discriminate]. }
  assert (ONE : forall d m c, defaults_after u = Some d -> settled false (mentions m) ->
     (run_parser (texts u [(m, [])]) = Ok (Some [c]) <-> means d m c)).
  { intros d m c D S. rewrite run_means by (unfold unmixed; cbn; rewrite app_nil_r; exact S). cbn [maps_of flat_map fst snd app]. split.
    - intros (d' & D' & F). inversion_clear F. congruence.
    - intros M. exists d. split; [exact D |]. constructor; [exact M | constructor]. }
  assert (ALL := settled_each _ _ U). split.
  - intros (d & D & F). rewrite D in NIL. destruct (proj1 NIL ltac:(discriminate)) as [N1 N2].
    split; [exact N1 |]. split; [exact N2 |]. clear U NIL.
    induction F as [| m c l cs H F IH]; constructor.
    + inversion_clear ALL. apply (ONE d); assumption.
    + apply IH. inversion_clear ALL. assumption.
  - intros (N1 & N2 & F). destruct (defaults_after u) as [d |].
    + exists d. split; [reflexivity |]. clear U NIL.
      induction F as [| m c l cs H F IH]; constructor.
      * inversion_clear ALL. apply (ONE d); auto.
      * apply IH. inversion_clear ALL. assumption.
    + exfalso. destruct NIL as [_ NIL]. apply NIL; [split; assumption | reflexivity].
Qed.

(** ** C66 *)
Lemma user_followed u : followed u -> user_does u = user_says defaults_new u.
Proof.
  intros (B & R & N). unfold user_does, user_says. rewrite R. cbn [range_of obind fst snd].
  assert (I : intervals_of (double_of_Z 0, double_of_Z 0) (ue_intervals u) = intervals_of (d_lat_interval defaults_new, d_lon_interval defaults_new) (ue_intervals u))
    by (destruct (ue_intervals u); try contradiction; reflexivity).
  rewrite I. clear I. destruct (intervals_of _ (ue_intervals u)) as [i |]; cbn [obind]; [| reflexivity].
  assert (K : user_nibbles (d_nibbles defaults_new) (ue_nibbling u) = nibbles_of (d_nibbles defaults_new) (ue_nibbling u)).
  { rewrite nibbles_of_given. unfold user_nibbles.
    clear R B. destruct (all_some nibble_given (ue_nibbling u)) as [v |] eqn:E; cbn [obind option_map]; [| reflexivity].
    f_equal. generalize (d_nibbles defaults_new). revert v E.
    induction (ue_nibbling u) as [| e l IH]; intros v E b; cbn [all_some] in E.
    - injection E as <-. reflexivity.
    - inversion_clear N as [| ? ? N1 N2]. unfold nibble_given at 1 in E.
      destruct (nibble_size (snd e)) as [n | | ] eqn:S; cbn [kept obind] in E; try discriminate.
      destruct (all_some nibble_given l) as [w |]; cbn [obind] in E; [| discriminate]. injection E as <-. cbn [fold_left fst snd].
      specialize (N1 n eq_refl).
      assert (0 <= n).
      { unfold nibble_size in S. destruct (integer (snd e)) as [z | | ]; cbn [pbind] in S; try discriminate.
        destruct (Z.leb_spec 0 z); congruence. }
      rewrite Z.mod_small by lia. apply IH; [exact N2 | reflexivity]. }
  rewrite K. reflexivity.
Qed.

Lemma run_followed u ts cmds : followed u -> unmixed ts ->
  run_parser (texts (Some u) ts) = Ok (Some cmds) <->
  exists d, user_says defaults_new u = Some d /\ Forall2 (means d) (maps_of ts) cmds.
Proof. intros F U. rewrite run_means by exact U. cbn [defaults_after]. rewrite user_followed by exact F. reflexivity. Qed.

(** ** C93 *)
Definition safe {A} (o : outcome (option (A * globals))) (R : globals -> Prop) : Prop :=
  match o with Ok (Some (_, g)) => R g | UB _ => False | _ => True end.
Definition some_ready (g : globals) : Prop := exists d gl, ready d gl g.

Lemma safe_bind {A B} (m : act A) (f : A -> act B) g R Q :
  safe (m g) R -> (forall a g', R g' -> safe (f a g') Q) -> safe (andthen m f g) Q.
Proof.
  unfold andthen. destruct (m g) as [[[a g'] |] | e | u]; cbn; intros H K; try exact I.
  - apply K. exact H.
  - exact H.
Qed.

Lemma agrees_safe {A B} (o : outcome (option (A * globals))) (r : option B) R (Q : globals -> Prop) :
  agrees o r R -> (forall a b g', R a b g' -> Q g') -> safe o Q.
Proof.
  destruct r as [b |]; cbn.
  - intros (a & g' & -> & H) K. cbn. exact (K a b g' H).
  - intros [-> | [e ->]] _; exact I.
Qed.

Lemma nibble_safe e g : some_ready g -> safe (a_nibble e g) some_ready.
Proof.
  intros (d & gl & [RP RC RF RO RN RT]). unfold a_nibble.
  destruct (nibble_size (snd e)) as [n | | x]; [| exact I | exact I].
  unfold andthen at 1. cbn [of_parsed ret]. unfold andthen at 1, read at 1.
  destruct (g_photo_parameters g) as [p |]; cbn [safe update andthen read].
  - exists d, gl. constructor; assumption.
  - eexists _, gl. constructor; try assumption. reflexivity.
Qed.

Lemma user_safe u g : some_ready g -> safe (Parse_Model.a_user u g) some_ready.
Proof.
  intros R. unfold Parse_Model.a_user.
  eapply safe_bind with (R := some_ready).
  { eapply agrees_safe; [apply intervals_agree |]. intros _ i g' ->.
    destruct R as (d & gl & [RP RC RF RO RN RT]). exists d, gl. constructor; assumption. }
  clear g R. intros _ g R. eapply safe_bind with (R := some_ready).
  { eapply agrees_safe; [apply data_range_agrees |]. intros _ i g' ->.
    destruct R as (d & gl & [RP RC RF RO RN RT]). exists d, gl. constructor; assumption. }
  clear g R. intros _ g R. eapply safe_bind with (R := some_ready).
  { revert g R. induction (ue_nibbling u) as [| e l IH]; intros g R; cbn [each]; [exact R |].
    eapply safe_bind; [apply nibble_safe; exact R |]. intros _ g' R'. apply IH. exact R'. }
  clear g R. intros _ g (d & gl & [RP RC RF RO RN RT]). cbn [andthen read update safe].
  eexists _, gl. constructor; try assumption. reflexivity.
Qed.

Lemma file_safe t g : some_ready g -> safe (a_file t g) some_ready.
Proof.
  intros R. destruct t as [u | m more].
  - apply user_safe. exact R.
  - destruct R as (d & gl & R). change (a_file (map_text m more)) with (each a_map (m :: more)).
    eapply agrees_safe; [apply maps_agree; exact R |]. intros _ r g' [R' _]. exists d, (snd r). exact R'.
Qed.

Lemma run_defined l u : run_parser l <> UB u.
Proof.
  unfold Parse_Model.run_parser, a_files.
  assert (S : forall g, some_ready g -> safe (each a_file l g) some_ready).
  { induction l as [| t l IH]; intros g R; cbn [each]; [exact R |].
    eapply safe_bind; [apply file_safe; exact R |]. intros _ g' R'. apply IH. exact R'. }
  specialize (S globals_new (ex_intro _ defaults_new (ex_intro _ false ready_new))).
  destruct (each a_file l globals_new) as [[[[] g] |] | e | v]; try discriminate. destruct S.
Qed.
End Proofs.

(** ** Runs that show what goes wrong *)

Definition digit (z : Z) : number := NumText None [z] None None.
Definition small_map (g : option (bool * option intervals)) (p : projection_entry) (n : option number) (x : plane_entry) (l : list plane_entry) : map_entry :=
  MapEntry "map.fits" None None [] [] "Earth" (given_radii (A := ar_double) (double_of_Z 6378) (double_of_Z 6357)) true
    None None None None g p n (digit 4) (digit 2) x l.
Definition simple_plane (t : plane_type) : plane_entry := PlaneEntry None no_range t.
Definition numbered_plane (z : Z) (t : plane_type) : plane_entry := PlaneEntry (Some (digit z)) no_range t.

Lemma small_body : exists b, body_spheroid (A := ar_double) true (given_radii (A := ar_double) (double_of_Z 6378) (double_of_Z 6357)) = Ok b.
Proof.
  unfold body_spheroid, body_radii, radii_validate, radii_of, spheroid_new, validate_radius. cbn [eq_rad pol_rad flattening].
  repeat match goal with |- context [if ?c then _ else _] =>
    let v := eval vm_compute in c in (replace c with v by (vm_compute; reflexivity)); cbn [bind fst snd eq_rad pol_rad flattening] end.
  eexists. reflexivity.
Qed.

Section Witnesses.
Context (fmod : double -> double -> double) (degree : double) (centric : body -> double -> double) (au : double).
Context (opens : string -> option exn) (refuses : body -> list vcall -> vcall -> option exn).
Local Notation run := (run_parser fmod degree centric au (fun _ => None) opens refuses).
Local Notation means := (means fmod degree centric au (fun _ => None) opens refuses).

Local Notation ordered_body := (ordered_body fmod degree centric au (fun _ => None) opens refuses).
Local Notation ordered_map := (ordered_map fmod degree centric au (fun _ => None) opens refuses).
Local Notation ordered_maps := (ordered_maps fmod degree centric au (fun _ => None) opens refuses).
Local Notation ordered_factories := (ordered_factories fmod degree centric au opens refuses).
Local Notation map_body := (map_body fmod degree centric au (fun _ => None) opens refuses).

Definition small_params (m : map_entry) : params := params_early m.

Lemma small_ordered b d gl g n x l :
  body_spheroid (A := ar_double) true (given_radii (A := ar_double) (double_of_Z 6378) (double_of_Z 6357)) = Ok b ->
  let m := small_map g (T_mercator None) n x l in
  numbersb m = true ->
  ordered_map d gl m =
  do g <- grid_says d m;
  do i <- ordered_factories d b AVG_WEIGHTED gl (x :: l);
  Some (MapCommand "map.fits" 4 2 (Mercator b) (small_params m) g (fst i), snd i).
Proof.
  intros HB m N. rewrite map_apart, N. unfold Parse_Proofs.ordered_body.
  change (me_prograde m) with true. change (me_radii m) with (given_radii (A := ar_double) (double_of_Z 6378) (double_of_Z 6357)).
  rewrite HB. cbn [done obind]. rewrite params_parts.
  change (params_late m (params_early m)) with (Some (small_params m)). cbn [obind].
  destruct (grid_says d m); cbn [obind]; [| reflexivity].
  change (kept (positive_size (me_samples m))) with (Some 4). change (kept (positive_size (me_lines m))) with (Some 2).
  reflexivity.
Qed.

Lemma small_means b d g n x l c :
  body_spheroid (A := ar_double) true (given_radii (A := ar_double) (double_of_Z 6378) (double_of_Z 6357)) = Ok b ->
  let m := small_map g (T_mercator None) n x l in
  means d m c ->
  grid_says d m = Some (mc_grid c) /\
  all_some (plane_of fmod degree centric au opens refuses d b AVG_WEIGHTED) (x :: l) = Some (mc_images c).
Proof.
  intros HB m [H _]. revert H. unfold Parse_Spec.map_body.
  change (me_prograde m) with true. change (me_radii m) with (given_radii (A := ar_double) (double_of_Z 6378) (double_of_Z 6357)).
  rewrite HB. rewrite params_parts. change (params_late m (params_early m)) with (Some (small_params m)). cbn [done obind].
  destruct (grid_says d m) as [gr |]; cbn [obind]; [| discriminate].
  change (kept (positive_size (me_samples m))) with (Some 4). change (kept (positive_size (me_lines m))) with (Some 2).
  change (me_projection m) with (T_mercator None). change (average_of (T_mercator None)) with AVG_WEIGHTED.
  change (me_plane m :: me_more_planes m) with (x :: l).
  cbn [obind Parse_Spec.projection_of Parse_Spec.projection_args nothing_thrown]. unfold Parse_Spec.projection_of. cbn [Parse_Spec.projection_args obind nothing_thrown].
  destruct (all_some _ (x :: l)) as [i |]; cbn [obind]; [| discriminate].
  intros [= <-]. split; reflexivity.
Qed.

(** LATITUDE: GRAPHIC in one map changes the LATITUDE plane of the next. *)
Lemma type_remains : exists m1 m2 c1 c2 c2',
  run [map_text m1 []] = Ok (Some [c1]) /\ run [map_text m2 []] = Ok (Some [c2]) /\
  run [map_text m1 [m2]] = Ok (Some [c1; c2']) /\ run [map_text m1 []; map_text m2 []] = Ok (Some [c1; c2']) /\
  c2 <> c2'.
Proof.
  destruct small_body as [b HB].
  set (m1 := small_map None (T_mercator None) None (simple_plane (T_latitude (Some Graphic))) []).
  set (m2 := small_map None (T_mercator None) None (simple_plane (T_latitude None)) []).
  set (c := fun gl => MapCommand "map.fits" 4 2 (Mercator b) (small_params m1) None [ImageFactory (F_latitude b gl) (Extrema (T := ct F64) None None)]).
  assert (E1 : forall gl, ordered_map defaults_new gl m1 = Some (c true, true))
    by (intros gl; unfold m1; rewrite (small_ordered b _ _ _ _ _ _ HB) by reflexivity; reflexivity).
  assert (E2 : forall gl, ordered_map defaults_new gl m2 = Some (c gl, gl))
    by (intros gl; unfold m2; rewrite (small_ordered b _ _ _ _ _ _ HB) by reflexivity; reflexivity).
  clearbody m1 m2. exists m1, m2, (c true), (c false), (c true).
  split; [apply (run_agrees fmod degree centric au _ opens refuses None [(m1, [])]); exists defaults_new, true; split; [reflexivity | cbn; rewrite E1; reflexivity] |].
  split; [apply (run_agrees fmod degree centric au _ opens refuses None [(m2, [])]); exists defaults_new, false; split; [reflexivity | cbn; rewrite E2; reflexivity] |].
  split; [apply (run_agrees fmod degree centric au _ opens refuses None [(m1, [m2])]); exists defaults_new, true; split; [reflexivity | cbn; rewrite E1; cbn; rewrite E2; reflexivity] |].
  split; [apply (run_agrees fmod degree centric au _ opens refuses None [(m1, []); (m2, [])]); exists defaults_new, true; split; [reflexivity | cbn; rewrite E1; cbn; rewrite E2; reflexivity] |].
  intros H. apply (f_equal (fun c => map if_source (mc_images c))) in H. discriminate H.
Qed.

(** DATA_MIN, DATA_MAX and a single interval of the user file are lost. *)
Lemma user_limits_lost : exists u d m c,
  ue_range u = min_max (double_of_Z 1) (double_of_Z 5) /\ user_says defaults_new u = Some d /\
  run [user_text u; map_text m []] = Ok (Some [c]) /\
  map if_limits (mc_images c) = [Extrema (T := ct F64) None None] /\ ~ means d m c.
Proof.
  destruct small_body as [b HB].
  set (u := UserEntry (both_intervals (double_of_Z 15)) (min_max (double_of_Z 1) (double_of_Z 5)) []).
  set (m := small_map None (T_mercator None) None (simple_plane T_longitude) []).
  set (d := Defaults (double_of_Z 15) (double_of_Z 15) (Some (double_of_Z 1)) (Some (double_of_Z 5)) (Nibbles 0 0 0 0)).
  set (c := MapCommand "map.fits" 4 2 (Mercator b) (small_params m) None [ImageFactory F_longitude (Extrema (T := ct F64) None None)]).
  assert (G1 : fle (double_of_Z 15) (double_of_Z 0) = false) by (vm_compute; reflexivity).
  assert (G2 : flt (double_of_Z 1) (double_of_Z 5) = true) by (vm_compute; reflexivity).
  exists u, d, m, c. split; [reflexivity |].
  split; [unfold user_says, u; cbn [ue_intervals ue_range ue_nibbling intervals_of range_of]; unfold interval_given; rewrite G1, G2; reflexivity |].
  split.
  { apply (run_agrees fmod degree centric au _ opens refuses (Some u) [(m, [])]).
    exists (Defaults (double_of_Z 15) (double_of_Z 15) None None (Nibbles 0 0 0 0)), false. split.
    - cbn [defaults_after]. unfold user_does, u. cbn [ue_intervals ue_range ue_nibbling intervals_of range_of]. unfold interval_given. rewrite G1, G2. reflexivity.
    - cbn [maps_of flat_map fst snd app Parse_Proofs.ordered_maps]. unfold m. rewrite (small_ordered b _ _ _ _ _ _ HB) by reflexivity. reflexivity. }
  split; [reflexivity |]. intros H. apply (small_means b) in H; [| exact HB]. destruct H as [_ H].
  revert H. cbn [all_some mc_images c]. unfold plane_of, limits_say. cbn [pe_range simple_plane range_of d d_minimum d_maximum fst snd number_or_none obind].
  replace (is_nan (double_of_Z 1)) with false by (vm_compute; reflexivity). replace (is_nan (double_of_Z 5)) with false by (vm_compute; reflexivity).
  cbn [negb andb obind pe_type Parse_Spec.source_of]. intros H. injection H as H. discriminate H.
Qed.

Lemma user_interval_lost : exists u d m c,
  ue_intervals u = lat_interval (double_of_Z 15) /\ user_says defaults_new u = Some d /\
  run [user_text u; map_text m []] = Ok (Some [c]) /\
  mc_grid c = Some (double_of_Z 15, double_of_Z 0) /\ ~ means d m c.
Proof.
  destruct small_body as [b HB].
  set (u := UserEntry (lat_interval (double_of_Z 15)) no_range []).
  set (m := small_map (Some (true, None)) (T_mercator None) None (simple_plane T_longitude) []).
  set (d := Defaults (double_of_Z 15) (double_of_Z 10) None None (Nibbles 0 0 0 0)).
  set (c := MapCommand "map.fits" 4 2 (Mercator b) (small_params m) (Some (double_of_Z 15, double_of_Z 0)) [ImageFactory F_longitude (Extrema (T := ct F64) None None)]).
  assert (G1 : fle (double_of_Z 15) (double_of_Z 0) = false) by (vm_compute; reflexivity).
  exists u, d, m, c. split; [reflexivity |].
  split; [unfold user_says, u; cbn [ue_intervals ue_range ue_nibbling intervals_of range_of]; unfold interval_given; rewrite G1; reflexivity |].
  split.
  { apply (run_agrees fmod degree centric au _ opens refuses (Some u) [(m, [])]).
    exists (Defaults (double_of_Z 15) (double_of_Z 0) None None (Nibbles 0 0 0 0)), false. split.
    - cbn [defaults_after]. unfold user_does, u. cbn [ue_intervals ue_range ue_nibbling intervals_of range_of]. unfold interval_given. rewrite G1. reflexivity.
    - cbn [maps_of flat_map fst snd app Parse_Proofs.ordered_maps]. unfold m. rewrite (small_ordered b _ _ _ _ _ _ HB) by reflexivity. reflexivity. }
  split; [reflexivity |]. intros H. apply (small_means b) in H; [| exact HB]. destruct H as [H _].
  cbn [c mc_grid] in H. unfold grid_says in H. cbn [me_grid small_map d d_lat_interval d_lon_interval obind] in H.
  assert (K : double_of_Z 10 = double_of_Z 0) by congruence.
  assert (F : flt (double_of_Z 0) (double_of_Z 10) = true) by (vm_compute; reflexivity). rewrite K in F. vm_compute in F. discriminate F.
Qed.

(** With PLANES: 2, the second plane may be "PLANE: 1". *)
Lemma number_not_position : exists m c,
  me_planes m = Some (digit 2) /\ pe_number (me_plane m) = None /\ map pe_number (me_more_planes m) = [Some (digit 1)] /\
  run [map_text m []] = Ok (Some [c]).
Proof.
  destruct small_body as [b HB].
  set (m := small_map None (T_mercator None) (Some (digit 2)) (simple_plane T_longitude) [numbered_plane 1 T_longitude]).
  exists m, (MapCommand "map.fits" 4 2 (Mercator b) (small_params m) None
     [ImageFactory F_longitude (Extrema (T := ct F64) None None); ImageFactory F_longitude (Extrema (T := ct F64) None None)]).
  repeat (split; [reflexivity |]).
  apply (run_agrees fmod degree centric au _ opens refuses None [(m, [])]).
  exists defaults_new, false. split; [reflexivity |].
  cbn [maps_of flat_map fst snd app Parse_Proofs.ordered_maps]. unfold m.
  rewrite (small_ordered b _ _ _ _ _ _ HB) by (vm_compute; reflexivity). reflexivity.
Qed.

(** "PLANE: 1", "PLANE: 2" after "PLANES: 2". *)
Lemma numbers_written : let m := small_map None (T_mercator None) (Some (digit 2)) (numbered_plane 1 T_longitude) [numbered_plane 2 T_longitude] in
  numbered m /\ exists c, run [map_text m []] = Ok (Some [c]) /\ List.length (mc_images c) = 2%nat.
Proof.
  destruct small_body as [b HB]. intros m. split; [exists [1; 2]; repeat split; vm_compute; reflexivity |].
  exists (MapCommand "map.fits" 4 2 (Mercator b) (small_params m) None
     [ImageFactory F_longitude (Extrema (T := ct F64) None None); ImageFactory F_longitude (Extrema (T := ct F64) None None)]).
  split; [| reflexivity].
  apply (run_agrees fmod degree centric au _ opens refuses None [(m, [])]).
  exists defaults_new, false. split; [reflexivity |].
  cbn [maps_of flat_map fst snd app Parse_Proofs.ordered_maps]. unfold m.
  rewrite (small_ordered b _ _ _ _ _ _ HB) by (vm_compute; reflexivity). reflexivity.
Qed.

(** "PLANE: 2" first. *)
Lemma numbers_wrong : let m := small_map None (T_mercator None) (Some (digit 2)) (numbered_plane 2 T_longitude) [numbered_plane 1 T_longitude] in
  ~ numbered m /\ forall cmds, run [map_text m []] <> Ok (Some cmds).
Proof.
  intros m. assert (N : ~ numbered m) by (rewrite <- numbers_numbered; vm_compute; discriminate).
  split; [exact N |]. intros cmds H.
  apply (numbers_decide fmod degree centric au _ opens refuses None [(m, [])]) in H. destruct H as [H _].
  inversion_clear H. contradiction.
Qed.

(** LATITUDE: GRAPHIC, then LATITUDE: CENTRIC in another map. *)
Lemma types_apart :
  let m k := small_map None (T_mercator None) None (simple_plane (T_latitude (Some k))) [] in
  unmixed [(m Graphic, [m Centric])] /\
  exists c1 c2, run [map_text (m Graphic) [m Centric]] = Ok (Some [c1; c2]) /\ run [map_text (m Centric) []] = Ok (Some [c2]).
Proof.
  destruct small_body as [b HB]. intros m. split; [cbn; tauto |].
  set (c := fun gl => MapCommand "map.fits" 4 2 (Mercator b) (small_params (m Graphic)) None [ImageFactory (F_latitude b gl) (Extrema (T := ct F64) None None)]).
  assert (E1 : forall gl, ordered_map defaults_new gl (m Graphic) = Some (c true, true))
    by (intros gl; unfold m; rewrite (small_ordered b _ _ _ _ _ _ HB) by reflexivity; reflexivity).
  assert (E2 : forall gl, ordered_map defaults_new gl (m Centric) = Some (c false, false))
    by (intros gl; unfold m; rewrite (small_ordered b _ _ _ _ _ _ HB) by reflexivity; reflexivity).
  clearbody m. exists (c true), (c false).
  split; [apply (run_agrees fmod degree centric au _ opens refuses None [(m Graphic, [m Centric])]); exists defaults_new, false; split; [reflexivity | cbn; rewrite E1; cbn; rewrite E2; reflexivity] |].
  apply (run_agrees fmod degree centric au _ opens refuses None [(m Centric, [])]); exists defaults_new, false; split; [reflexivity | cbn; rewrite E2; reflexivity].
Qed.

(** GRID_INTERVAL: 15 in the user file, GRID: YES in the map. *)
Lemma user_case :
  let u := UserEntry (both_intervals (double_of_Z 15)) no_range [(left_side, digit 3)] in
  let m := small_map (Some (true, None)) (T_mercator None) None (simple_plane T_longitude) [] in
  followed u /\ exists c, run [user_text u; map_text m []] = Ok (Some [c]) /\ mc_grid c = Some (double_of_Z 15, double_of_Z 15).
Proof.
  destruct small_body as [b HB]. intros u m. split.
  - split; [exact I |]. split; [reflexivity |]. repeat constructor. cbn. intros n [= <-]. lia.
  - exists (MapCommand "map.fits" 4 2 (Mercator b) (small_params m) (Some (double_of_Z 15, double_of_Z 15)) [ImageFactory F_longitude (Extrema (T := ct F64) None None)]).
    split; [| reflexivity].
    assert (G1 : fle (double_of_Z 15) (double_of_Z 0) = false) by (vm_compute; reflexivity).
    apply (run_agrees fmod degree centric au _ opens refuses (Some u) [(m, [])]).
    exists (Defaults (double_of_Z 15) (double_of_Z 15) None None (Nibbles 3 0 0 0)), false. split.
    + cbn [defaults_after]. unfold user_does, u. cbn [ue_intervals ue_range ue_nibbling intervals_of range_of]. unfold interval_given. rewrite G1. reflexivity.
    + cbn [maps_of flat_map fst snd app Parse_Proofs.ordered_maps]. unfold m. rewrite (small_ordered b _ _ _ _ _ _ HB) by reflexivity. reflexivity.
Qed.
End Witnesses.

(** Without a user file. *)
Lemma run_internal fmod degree centric au construct opens refuses ts cmds : unmixed ts ->
  run_parser fmod degree centric au construct opens refuses (texts None ts) = Ok (Some cmds) <->
  Forall2 (means fmod degree centric au construct opens refuses
    (Defaults (double_of_Z 10) (double_of_Z 10) None None (Nibbles 0 0 0 0))) (maps_of ts) cmds.
Proof.
  intros U. rewrite (run_means fmod degree centric au construct opens refuses None ts cmds U).
  split; [intros (d & [= <-] & F); exact F | intros F; exists defaults_new; split; [reflexivity | exact F]].
Qed.
