(** Lemmas for source images. *)
From Coq Require Import List ZArith Bool Reals Lia Lra.
From Verif Require Import Base Flt Num Utility_Model Utility_Spec Utility_Proofs Extrema_Model Virtual_Model Photo_Model Photo_Spec Photo_Proofs PhotoReal_Proofs
  Input_Model Input_Spec.
Import ListNotations.
Open Scope Z_scope.

Section Proofs.
Context {A : arith} {P : Type} (nan : A).

Lemma two_axes s l first : 0 < s -> coordinates [s; l] (first + 1) = [first mod s + 1; (first / s) mod l + 1].
Proof.
  intros S. unfold coordinates.
  replace (first + 1 - 1) with first by lia. replace (first / s + 1 - 1) with (first / s) by lia. reflexivity.
Qed.

Lemma nth_error_ext {B} (l l' : list B) : length l = length l' ->
  (forall n, (n < length l)%nat -> nth_error l n = nth_error l' n) -> l = l'.
Proof.
  revert l'. induction l as [| a l IH]; intros [| b l'] L H; try discriminate; [reflexivity |].
  pose proof (H 0%nat ltac:(cbn; lia)) as [= <-]. f_equal. apply IH; [cbn in L; lia |].
  intros n N. apply (H (S n)). cbn. lia.
Qed.

(** The pixels determine the list. *)
Lemma shows_unique (f : fits_image A) s l img img' : 0 < s -> 0 <= l -> shows nan f s l img -> shows nan f s l img' -> img = img'.
Proof.
  intros S L [E H] [E' H']. apply nth_error_ext; [lia |]. intros n N.
  assert (K : (n / Z.to_nat s < Z.to_nat l)%nat).
  { apply Nat.div_lt_upper_bound; [lia |]. nia. }
  assert (I : (n mod Z.to_nat s < Z.to_nat s)%nat) by (apply Nat.mod_upper_bound; lia).
  specialize (H _ _ K I). specialize (H' _ _ K I). unfold pixel in *.
  replace (n / Z.to_nat s * Z.to_nat s + n mod Z.to_nat s)%nat with n in *
    by (pose proof (Nat.div_mod n (Z.to_nat s)); lia).
  congruence.
Qed.

Lemma pixels_shown (f : fits_image A) s l : 0 < s -> 0 < l -> fi_axes f = [s; l] ->
  shows nan f s l
    (map (fun i => match fi_pixel f (coordinates (fi_axes f) (1 + Z.of_nat i)) with Some v => v | None => nan end)
       (seq 0 (Z.to_nat (s * l)))).
Proof.
  intros S L E. split; [rewrite map_length, seq_length; nia |].
  intros k i K I. unfold pixel.
  assert (N : (k * Z.to_nat s + i < Z.to_nat (s * l))%nat) by nia.
  rewrite nth_error_map.
  replace (nth_error (seq 0 (Z.to_nat (s * l))) (k * Z.to_nat s + i)) with (Some (k * Z.to_nat s + i)%nat).
  2: { symmetry. rewrite (nth_error_nth' _ 0%nat) by (rewrite seq_length; exact N). f_equal. rewrite seq_nth by exact N. reflexivity. }
  cbn [option_map]. f_equal. rewrite E, Z.add_comm, two_axes by lia. unfold physical.
  replace (Z.of_nat (k * Z.to_nat s + i)) with (Z.of_nat i + Z.of_nat k * s) by lia.
  rewrite Z.mod_add, Z.div_add, Z.mod_small, Z.div_small, Z.add_0_l, Z.mod_small by lia. reflexivity.
Qed.

Lemma read_image_iff (f : fits_image A) img s l : flat_image f ->
  read_image nan f = Ok (img, s, l) <->
  fi_param_status f = 0 /\ fi_read_status f = 0 /\ fi_axes f = [s; l] /\ 2 <= s /\ 2 <= l /\ fi_alloc f (s * l) = None /\
  shows nan f s l img.
Proof.
  intros [F1 F2]. unfold read_image. destruct (Z.eqb_spec (fi_param_status f) 0) as [Z1 | Z1]; cbn [negb].
  2: { split; [discriminate | intros (H & _); contradiction]. }
  destruct (fi_axes f) as [| n0 [| n1 r]] eqn:E; try (split; [discriminate | intros (_ & _ & H & _); discriminate]).
  destruct r as [| ? ?]; [| cbn in F1; lia]. specialize (F2 n0 n1 eq_refl).
  destruct (Z.ltb_spec n0 2) as [L0 | L0]; [split; [discriminate | intros (_ & _ & [= -> ->] & ? & _); lia] |].
  destruct (Z.ltb_spec n1 2) as [L1 | L1]; [split; [discriminate | intros (_ & _ & [= -> ->] & _ & ? & _); lia] |].
  cbn [orb]. destruct (Z.leb_spec (2 ^ 63) (n0 * n1)); [lia |].
  destruct (fi_alloc f (n0 * n1)) as [e |] eqn:EA.
  { split; [discriminate | intros (_ & _ & [= -> ->] & _ & _ & ? & _); congruence]. }
  unfold fits_read_pixll. rewrite E. cbn [first_element bind].
  destruct (Z.eqb_spec (fi_read_status f) 0) as [Z2 | Z2]; cbn [negb bind].
  2: { split; [discriminate | intros (_ & ? & _); contradiction]. }
  assert (W0 : n0 < 2 ^ 62) by nia.
  assert (W1 : n1 < 2 ^ 62) by nia.
  rewrite !wrap_id by (unfold size_mod; lia).
  replace ((1 - 1) * 1 + ((1 - 1) * (1 * n0) + 1)) with 1 by lia.
  pose proof (pixels_shown f n0 n1 ltac:(lia) ltac:(lia) E) as Sh. rewrite E in Sh.
  split.
  - intros Q. injection Q. intros <- <- <-. repeat (split; [assumption || lia || reflexivity |]). exact Sh.
  - intros (_ & _ & [= <- <-] & _ & _ & _ & Sh'). do 3 f_equal. apply (shows_unique f n0 n1); try lia; assumption.
Qed.

Lemma read_image_defined (f : fits_image A) u : flat_image f -> read_image nan f <> UB u.
Proof.
  intros [F1 F2]. unfold read_image. destruct (negb _); [discriminate |].
  destruct (fi_axes f) as [| n0 [| n1 r]] eqn:E; try discriminate.
  destruct r as [| ? ?]; [| cbn in F1; lia]. specialize (F2 n0 n1 eq_refl).
  destruct (_ || _); [discriminate |]. destruct (Z.leb_spec (2 ^ 63) (n0 * n1)); [lia |].
  destruct (fi_alloc f (n0 * n1)); [discriminate |]. unfold fits_read_pixll. rewrite E. cbn [first_element bind].
  destruct (negb _); discriminate.
Qed.

Lemma read_image_refuted_ :
  (forall (f : fits_image A) n0 n1 n2 r, fi_axes f = n0 :: n1 :: n2 :: r ->
     fi_param_status f = 0 -> 2 <= n0 -> 2 <= n1 -> n0 * n1 < 2 ^ 63 -> fi_alloc f (n0 * n1) = None ->
     read_image nan f = UB ub_access) /\
  (forall (f : fits_image A) n0 n1 r, fi_axes f = n0 :: n1 :: r ->
     fi_param_status f = 0 -> 2 <= n0 -> 2 <= n1 -> 2 ^ 63 <= n0 * n1 -> read_image nan f = UB ub_overflow).
Proof.
  split; intros f n0 n1; [intros n2 r E Hp L0 L1 M Al | intros r E Hp L0 L1 M]; unfold read_image; rewrite E, Hp; cbn [negb Z.eqb];
    destruct (Z.ltb_spec n0 2), (Z.ltb_spec n1 2); try lia; cbn [orb]; destruct (Z.leb_spec (2 ^ 63) (n0 * n1)); try lia; [| reflexivity].
  rewrite Al. unfold fits_read_pixll. rewrite E. reflexivity.
Qed.

(** ** Photos *)

Lemma bind_ok {B C} (m : outcome B) (k : B -> outcome C) c : bind m k = Ok c -> exists b, m = Ok b /\ k b = Ok c.
Proof. destruct m; cbn; try discriminate. eauto. Qed.

Lemma photo_made (f f' : photo_source A P) p : flat_source f -> photo_make nan f = Ok (Some p, f') ->
  exists s l n sky g ready,
    fi_axes (ff_image (ps_file f)) = [s; l] /\ 2 <= s /\ 2 <= l /\ s * l < 2 ^ 63 /\
    ps_config f = Some (n, sky) /\ ps_geometry f = Some g /\ rg_ready g (ps_geometric_correction f) s l = Ok ready /\
    (sky = true -> rg_mask g (ps_geometric_correction f) s l = Ok tt) /\
    (forall d, ps_flat_field f = Some d -> fi_axes (ff_image d) = [s; l]) /\
    Z.of_nat (length (ph_image p)) = s * l /\
    (forall k i, (k < Z.to_nat l)%nat -> (i < Z.to_nat s)%nat ->
       pixel (ph_image p) (Z.to_nat s) k i = Some (photo_value nan f s l (Z.of_nat i) (Z.of_nat k))) /\
    photo_new (ph_image p) s l
      (Some (Config n sky (if ps_interpolate f then interpolate (bilinear_new s l n) else null_interpolation) null_correction))
      (Some ready) = Ok p /\
    photo_make nan f' = Ok (None, f').
Proof.
  intros [Ff Fd] H. unfold photo_make in H. destruct (ps_config f) as [[n sky] |] eqn:Ec; [| discriminate].
  destruct (ps_geometry f) as [g |] eqn:Eg; [| discriminate].
  apply bind_ok in H. destruct H as ([[img s] l] & Ri & H).
  apply (read_image_iff _ _ _ _ Ff) in Ri. destruct Ri as (_ & _ & Ax & S2 & L2 & _ & Sh).
  apply bind_ok in H. destruct H as (flat & Rf & H).
  apply bind_ok in H. destruct H as (img' & Pr & H).
  apply bind_ok in H. destruct H as (ready & Rr & H).
  apply bind_ok in H. destruct H as (dmin & _ & H).
  apply bind_ok in H. destruct H as (dmax & _ & H).
  apply bind_ok in H. destruct H as (ex & _ & H).
  apply bind_ok in H. destruct H as (ex' & _ & H).
  apply bind_ok in H. destruct H as ([] & Ms & H).
  apply bind_ok in H. destruct H as (p' & Pn & H). injection H. intros Ef' <-.
  assert (SL : s * l < 2 ^ 63) by (apply (proj2 Ff); exact Ax).
  assert (Ep : ph_image p' = img').
  { pose proof (photo_new_inv _ _ _ _ _ _ Pn) as (_ & _ & _ & _ & ->). reflexivity. }
  assert (FT : fits s l) by (unfold fits; nia).
  assert (D : forall d, ps_flat_field f = Some d ->
     exists fi, flat = Some (fi, s, l) /\ fi_axes (ff_image d) = [s; l] /\ shows nan (ff_image d) s l fi).
  { intros d Ed. unfold read_flat_field in Rf. rewrite Ed in Rf.
    apply bind_ok in Rf. destruct Rf as (_ & _ & Rf). apply bind_ok in Rf. destruct Rf as ([[fi fs] fl] & Rd & [= <-]).
    apply (read_image_iff _ _ _ _ (Fd d Ed)) in Rd. destruct Rd as (_ & _ & Ax' & _ & _ & _ & Sh').
    destruct (Z.eq_dec fs s) as [-> | N1]; [destruct (Z.eq_dec fl l) as [-> | N2] |].
    - exists fi. auto.
    - rewrite (flat_field_mismatch fi s fl img s l) in Pr by tauto. discriminate.
    - rewrite (flat_field_mismatch fi fs fl img s l) in Pr by tauto. discriminate. }
  destruct (prepare_ok flat (ps_invert_h f) (ps_invert_v f) img s l FT (proj1 Sh)) as (img2 & Pr' & Len & Px).
  { intros fi fs fl ->. destruct (ps_flat_field f) as [d |] eqn:Ed.
    - destruct (D d eq_refl) as (fi' & [= -> -> ->] & _ & Sh'). destruct Sh as [? _], Sh' as [? _]. repeat split; lia.
    - discriminate. }
  assert (img2 = img') by congruence. subst img2.
  exists s, l, n, sky, g, ready. repeat (split; [first [assumption | reflexivity] |]).
  split; [intros ->; exact Ms |].
  split; [intros d Ed; destruct (D d Ed) as (? & _ & ? & _); assumption |].
  split; [rewrite Ep, Len; exact (proj1 Sh) |].
  split; [| split; [rewrite Ep; exact Pn | rewrite <- Ef'; reflexivity]].
  intros k i K I. rewrite Ep, Px by assumption. unfold flat_pixel, photo_value, turned.
  destruct Sh as [_ Sh].
  assert (K' : ((if ps_invert_v f then Z.to_nat l - 1 - k else k) < Z.to_nat l)%nat) by (destruct (ps_invert_v f); lia).
  assert (I' : ((if ps_invert_h f then Z.to_nat s - 1 - i else i) < Z.to_nat s)%nat) by (destruct (ps_invert_h f); lia).
  assert (EK : Z.of_nat (if ps_invert_v f then Z.to_nat l - 1 - k else k)%nat = if ps_invert_v f then l - 1 - Z.of_nat k else Z.of_nat k)
    by (destruct (ps_invert_v f); lia).
  assert (EI : Z.of_nat (if ps_invert_h f then Z.to_nat s - 1 - i else i)%nat = if ps_invert_h f then s - 1 - Z.of_nat i else Z.of_nat i)
    by (destruct (ps_invert_h f); lia).
  destruct (ps_flat_field f) as [d |] eqn:Ed.
  - destruct (D d eq_refl) as (fi & -> & _ & _ & Sh'). rewrite (Sh _ _ K' I'), (Sh' _ _ K' I'), EK, EI. reflexivity.
  - cbn in Rf. injection Rf as <-. rewrite (Sh _ _ K' I'), EK, EI. reflexivity.
Qed.

(** Reading without interpolation and sky removal. *)
Lemma plain_read (p : photo A P) img s l n ready pt data w :
  photo_new img s l (Some (Config n false null_interpolation null_correction)) (Some ready) = Ok p ->
  s * l < 2 ^ 63 -> size_nibbles n -> n_right n <= s -> n_bottom n <= l -> a_isnan A data = false ->
  answer_of (photo_read p pt data) = Ok (Some w) <->
  exists x z i k, g_pix ready pt = (true, x, z) /\ a_lt A x (a_of_Z A 0) = false /\ a_lt A z (a_of_Z A 0) = false /\
    a_size A x = Ok i /\ a_size A z = Ok k /\ in_window n s l i k /\
    access img (k * s + i) = Ok w /\ a_isnan A w = false.
Proof.
  intros New SL N Nr Nb Nd.
  pose proof (photo_new_inv _ _ _ _ _ _ New) as (S2 & L2 & Len & _ & Ep). cbn [c_nibbles c_remove_sky] in Ep.
  destruct N as (Hl & Hr & Ht & Hb). unfold is_size in *.
  assert (s < 2 ^ 62) by nia. assert (l < 2 ^ 62) by nia.
  assert (SM : size_mod = 2 ^ 64) by reflexivity.
  rewrite wrap_id in Len by nia. rewrite !(wrap_id (s - _)), !(wrap_id (l - _)) in Ep by lia.
  unfold photo_read, photo_read_w. rewrite Ep.
  cbn [ph_geometry ph_samples ph_left ph_right ph_top ph_bottom ph_mask ph_image ph_config c_interp c_correct].
  destruct (g_pix ready pt) as [[vis x] z] eqn:G.
  destruct vis; cbn [negb orb]; [| split; [discriminate | intros (? & ? & ? & ? & ? & _); discriminate]].
  destruct (a_lt A x (a_of_Z A 0)) eqn:Lx; cbn [orb];
    [split; [discriminate | intros (? & ? & ? & ? & [= <- <-] & ? & _); congruence] |].
  destruct (a_lt A z (a_of_Z A 0)) eqn:Lz; cbn [orb];
    [split; [discriminate | intros (? & ? & ? & ? & [= <- <-] & _ & ? & _); congruence] |].
  destruct (a_size A x) as [i | |] eqn:Ei; cbn [bind];
    [| split; [discriminate | intros (? & ? & ? & ? & [= <- <-] & _ & _ & ? & _); congruence] ..].
  destruct (a_size A z) as [k | |] eqn:Ek; cbn [bind];
    [| split; [discriminate | intros (? & ? & ? & ? & [= <- <-] & _ & _ & _ & ? & _); congruence] ..].
  assert (Win : (i <? n_left n) || (s - n_right n <=? i) || (k <? n_top n) || (l - n_bottom n <=? k) = false <-> in_window n s l i k).
  { unfold in_window. destruct (Z.ltb_spec i (n_left n)), (Z.leb_spec (s - n_right n) i), (Z.ltb_spec k (n_top n)), (Z.leb_spec (l - n_bottom n) k);
      cbn [orb]; split; intros; try discriminate; try lia; reflexivity. }
  destruct (_ || _ || _ || _).
  { split; [discriminate |]. intros (? & ? & ? & ? & [= <- <-] & _ & _ & Ei' & Ek' & W & _).
    rewrite Ei in Ei'. rewrite Ek in Ek'. injection Ei' as <-. injection Ek' as <-. apply Win in W. discriminate. }
  pose proof (proj1 Win eq_refl) as W. clear Win. unfold in_window in W.
  rewrite Nd. cbn [bind negb orb]. rewrite wrap_id by nia.
  assert (Uniq : (exists x0 z0 i0 k0, (true, x, z) = (true, x0, z0) /\ a_lt A x0 (a_of_Z A 0) = false /\ a_lt A z0 (a_of_Z A 0) = false /\
    a_size A x0 = Ok i0 /\ a_size A z0 = Ok k0 /\ in_window n s l i0 k0 /\ access img (k0 * s + i0) = Ok w /\ a_isnan A w = false)
    <-> access img (k * s + i) = Ok w /\ a_isnan A w = false).
  { split.
    - intros (? & ? & ? & ? & [= <- <-] & _ & _ & Ei' & Ek' & _ & R). rewrite Ei in Ei'. rewrite Ek in Ek'.
      injection Ei' as <-. injection Ek' as <-. exact R.
    - intros R. exists x, z, i, k. unfold in_window. repeat (split; [assumption || reflexivity || lia |]). exact R. }
  rewrite Uniq. destruct (access img (k * s + i)) as [d | |]; cbn [bind];
    [| split; [discriminate | intros [? _]; discriminate] ..].
  unfold null_interpolation, null_correction. cbn [bind negb orb].
  destruct (a_isnan A d) eqn:Nv; cbn [bind answer_of fst]; split.
  - discriminate.
  - intros [[= <-] ?]. congruence.
  - intros [= <-]. auto.
  - intros [[= <-] _]. reflexivity.
Qed.

Lemma pixel_access (img : list A) s l i k : 0 <= i < s -> 0 <= k < l -> Z.of_nat (length img) = s * l ->
  forall w, access img (k * s + i) = Ok w <-> pixel img (Z.to_nat s) (Z.to_nat k) (Z.to_nat i) = Some w.
Proof.
  intros I K L w. unfold access, znth, pixel. destruct (Z.ltb_spec (k * s + i) 0); [nia |].
  replace (Z.to_nat (k * s + i)) with (Z.to_nat k * Z.to_nat s + Z.to_nat i)%nat by nia.
  destruct (nth_error _ _); split; congruence.
Qed.

Lemma photo_answers (f f' : photo_source A P) p : flat_source f -> photo_make nan f = Ok (Some p, f') ->
  exists s l n sky g ready, fi_axes (ff_image (ps_file f)) = [s; l] /\ ps_config f = Some (n, sky) /\
    ps_geometry f = Some g /\ rg_ready g (ps_geometric_correction f) s l = Ok ready /\
    (sky = false -> ps_interpolate f = false -> size_nibbles n -> n_right n <= s -> n_bottom n <= l ->
     forall pt data w, a_isnan A data = false ->
     answer_of (photo_read p pt data) = Ok (Some w) <->
     exists x z i k, g_pix ready pt = (true, x, z) /\ a_lt A x (a_of_Z A 0) = false /\ a_lt A z (a_of_Z A 0) = false /\
       a_size A x = Ok i /\ a_size A z = Ok k /\ in_window n s l i k /\
       w = photo_value nan f s l i k /\ a_isnan A w = false).
Proof.
  intros F M. destruct (photo_made f f' p F M) as (s & l & n & sky & g & ready & Ax & S2 & L2 & SL & Ec & Eg & Er & _ & _ & Len & Px & New & _).
  exists s, l, n, sky, g, ready. repeat (split; [assumption |]).
  intros -> Ei N Nr Nb pt data w Nd. rewrite Ei in New.
  rewrite (plain_read p _ s l n ready pt data w New SL N Nr Nb Nd).
  assert (E : forall i k, in_window n s l i k -> (access (ph_image p) (k * s + i) = Ok w <-> w = photo_value nan f s l i k)).
  { intros i k W. destruct N as (Hl & Hr & Ht & Hb). unfold is_size, in_window in *.
    rewrite (pixel_access _ s l) by lia. rewrite Px by lia. rewrite !Z2Nat.id by lia. split; congruence. }
  split; intros (x & z & i & k & H1 & H2 & H3 & H4 & H5 & W & H7 & H8); exists x, z, i, k;
    repeat (split; [assumption |]); (split; [| assumption]); apply (E i k W); assumption.
Qed.

(** The limits afterwards, and files that cannot be opened. *)
Lemma set_min_ok (ex ex' : extrema (ct F64)) m : factory_minimum ex m = Ok ex' ->
  e_max ex' = e_max ex /\ e_min ex' = match e_min ex with Some x => Some x | None => Some m end.
Proof.
  unfold factory_minimum. destruct (e_min ex) eqn:E; [intros [= <-]; auto|]. unfold ex_set_min.
  unfold validate_minimum. cbn [bind]. destruct (BinarySingleNaN.is_nan m); [discriminate|]. cbn. intros [= <-]. auto.
Qed.
Lemma set_max_ok (ex ex' : extrema (ct F64)) m : factory_maximum ex m = Ok ex' ->
  e_min ex' = e_min ex /\ e_max ex' = match e_max ex with Some x => Some x | None => Some m end.
Proof.
  unfold factory_maximum. destruct (e_max ex) eqn:E; [intros [= <-]; auto|]. unfold ex_set_max.
  unfold validate_maximum. cbn [bind]. destruct (BinarySingleNaN.is_nan m); [discriminate|]. cbn. intros [= <-]. auto.
Qed.
Lemma min_step (ex ex' : extrema (ct F64)) k m : read_key k = Ok m ->
  (match m with Some m => factory_minimum ex m | None => Ok ex end) = Ok ex' -> e_max ex' = e_max ex /\ e_min ex' = first_given (e_min ex) k.
Proof.
  destruct k as [x| |]; cbn [read_key]; intros [= <-]; intros H.
  - apply set_min_ok in H. destruct H as [H1 H2]. split; [exact H1|]. rewrite H2. now destruct (e_min ex).
  - injection H as <-. split; [reflexivity|]. now destruct (e_min ex).
Qed.
Lemma max_step (ex ex' : extrema (ct F64)) k m : read_key k = Ok m ->
  (match m with Some m => factory_maximum ex m | None => Ok ex end) = Ok ex' -> e_min ex' = e_min ex /\ e_max ex' = first_given (e_max ex) k.
Proof.
  destruct k as [x| |]; cbn [read_key]; intros [= <-]; intros H.
  - apply set_max_ok in H. destruct H as [H1 H2]. split; [exact H1|]. rewrite H2. now destruct (e_max ex).
  - injection H as <-. split; [reflexivity|]. now destruct (e_max ex).
Qed.
Lemma photo_limits (f f' : photo_source A P) p : photo_make nan f = Ok (Some p, f') ->
  ff_datamin (ps_file f) <> key_error /\ ff_datamax (ps_file f) <> key_error /\
  (forall d, ps_flat_field f = Some d -> ff_open_status d = 0) /\
  e_min (ps_limits f') = first_given (e_min (ps_limits f)) (ff_datamin (ps_file f)) /\
  e_max (ps_limits f') = first_given (e_max (ps_limits f)) (ff_datamax (ps_file f)).
Proof.
  intros H. unfold photo_make in H. destruct (ps_config f) as [[n sky] |] eqn:Ec; [| discriminate].
  destruct (ps_geometry f) as [g |] eqn:Eg; [| discriminate].
  apply bind_ok in H. destruct H as ([[img s] l] & Ri & H).
  apply bind_ok in H. destruct H as (flat & Rf & H).
  apply bind_ok in H. destruct H as (img' & Pr & H).
  apply bind_ok in H. destruct H as (ready & Rr & H).
  apply bind_ok in H. destruct H as (dmin & Kmin & H).
  apply bind_ok in H. destruct H as (dmax & Kmax & H).
  apply bind_ok in H. destruct H as (ex & Emin & H).
  apply bind_ok in H. destruct H as (ex' & Emax & H).
  apply bind_ok in H. destruct H as ([] & Ms & H).
  apply bind_ok in H. destruct H as (p' & Pn & H). injection H. intros <- _. cbn [ps_limits].
  split; [intros E; rewrite E in Kmin; discriminate|]. split; [intros E; rewrite E in Kmax; discriminate|].
  split. { intros d E. rewrite E in Rf. cbn [read_flat_field] in Rf. apply bind_ok in Rf. destruct Rf as (u & O & _).
    unfold open_file in O. destruct (Z.eqb_spec (ff_open_status d) 0); [assumption|discriminate]. }
  destruct (min_step _ _ _ _ Kmin Emin) as [M1 M2]. destruct (max_step _ _ _ _ Kmax Emax) as [M3 M4].
  split; [etransitivity; [exact M3|exact M2]|]. rewrite M4. f_equal. exact M1.
Qed.
Lemma unopened (d : fits_file A) : ff_open_status d <> 0 -> photo_source_new (P := P) d = Throw runtime_error.
Proof. intros H. unfold photo_source_new, open_file. now rewrite (proj2 (Z.eqb_neq _ _) H). Qed.
End Proofs.

Lemma read_image_refuted :
  (forall {A} (nan : acar A) (f : fits_image A) n0 n1 n2 r, fi_axes f = n0 :: n1 :: n2 :: r ->
     fi_param_status f = 0 -> 2 <= n0 -> 2 <= n1 -> n0 * n1 < 2 ^ 63 -> fi_alloc f (n0 * n1) = None ->
     read_image nan f = UB ub_access) /\
  (forall {A} (nan : acar A) (f : fits_image A) n0 n1 r, fi_axes f = n0 :: n1 :: r ->
     fi_param_status f = 0 -> 2 <= n0 -> 2 <= n1 -> 2 ^ 63 <= n0 * n1 -> read_image nan f = UB ub_overflow).
Proof. split; intros A nan; apply (read_image_refuted_ nan). Qed.

(** Images for the cases. *)
Definition numbered (axes : list Z) : fits_image ar_num :=
  FitsImage (A := ar_num) axes (fun c => match c with
    | [1; 1] => Some (Num 11) | [2; 1] => Some (Num 21) | [3; 1] => None
    | [1; 2] => Some (Num 12) | [2; 2] => Some (Num 22) | [3; 2] => Some (Num 32)
    | _ => Some (Num 0) end) 0 0 (fun _ => None).
Definition a_file (axes : list Z) : fits_file ar_num := FitsFile (A := ar_num) 0 (numbered axes) key_absent key_absent.

(** ** With the view of [View_Model] *)
From Flocq Require Import Core.
From Verif Require Import LinAlg_Model Maths_Model Maths_Spec Spheroid_Model Spheroid_Spec.
From Verif Require View_Model View_Spec View_Proofs ViewAxis_Proofs Spheroid_Proofs.

Section Sees.
Context (other : geometry ar_num (R * R)).
Import View_Model View_Spec View_Proofs ViewAxis_Proofs.
Open Scope R_scope.

Lemma position_size (x : R) i : a_lt ar_num (Num x) (a_of_Z ar_num 0) = false -> a_size ar_num (Num x) = Ok i ->
  IZR i <= x < IZR i + 1.
Proof.
  cbn. unfold num_lt. intros L. destruct (Rlt_bool_spec x 0) as [| X]; [discriminate |].
  rewrite Ztrunc_floor by exact X. destruct (_ && _); [| discriminate]. intros [= <-].
  split; [apply Zfloor_lb | apply Zfloor_ub].
Qed.

Lemma size_position (x : R) i : (0 <= i < size_mod)%Z -> IZR i <= x < IZR i + 1 ->
  a_lt ar_num (Num x) (a_of_Z ar_num 0) = false /\ a_size ar_num (Num x) = Ok i.
Proof.
  intros I X. assert (0 <= x) by (apply Rle_trans with (IZR i); [apply IZR_le; lia | apply X]).
  cbn. unfold num_lt. split; [destruct (Rlt_bool_spec x 0); [lra | reflexivity] |].
  rewrite Ztrunc_floor by assumption.
  assert (E : Zfloor x = i) by (apply Zfloor_imp; rewrite plus_IZR; exact X). rewrite E.
  match goal with |- (if ?b then _ else _) = _ =>
    replace b with true by (symmetry; apply andb_true_iff; split; [apply Z.leb_le | apply Z.ltb_lt]; unfold size_mod in I; lia) end.
  reflexivity.
Qed.

Lemma photo_sees (f f' : photo_source ar_num (R * R)) p eq pol g term s l n sub_lat sub_lon range kpp os ol sc lc pa m :
  flat_source (A := ar_num) f -> photo_make (A := ar_num) NaN f = Ok (Some p, f') -> fi_axes (ff_image (ps_file f)) = [s; l] ->
  ps_config f = Some (n, false) -> ps_interpolate f = false -> ps_geometric_correction f = false ->
  size_nibbles n -> (n_right n <= s)%Z -> (n_bottom n <= l)%Z ->
  ps_geometry f = Some (raw_view other true eq pol g term) ->
  center_given eq pol g s l sub_lat sub_lon range kpp os ol sc lc pa ->
  offset kpp os ol sc lc <= range * cos sub_lat ->
  eq * eq + offset kpp os ol sc lc * offset kpp os ol sc lc < range * range ->
  g mu_limit_ = Num m -> 0 <= m ->
  exists v, finalize_setup true eq pol g term null_correction s l = Ok (Some v) /\
  forall lat lon d w, - (PI / 2) <= lat <= PI / 2 ->
  answer_of (photo_read p (lat, lon) (Num d)) = Ok (Some w) <->
  is_visible v lat lon = true /\ w <> NaN /\
  exists x z i k lon', in_window n s l i k /\ w = photo_value (A := ar_num) NaN f s l i k /\
    IZR i <= x < IZR i + 1 /\ IZR k <= z < IZR k + 1 /\ latlon2pix v lat lon = Some (Num x, Num z) /\
    pix2latlon v x z = Ok (Some (Num lat, lon')) /\ (cos lat <> 0 -> same_angle lon' lon).
Proof.
  intros F M Ax Ec Ei El N Nr Nb Eg CG O1 O2 Em M0.
  destruct (center_roundtrip true eq pol g term s l sub_lat sub_lon range kpp os ol sc lc pa CG O1 O2) as (v & Ev & RT).
  exists v. split; [exact Ev |]. specialize (RT m Em M0).
  destruct (photo_made (A := ar_num) NaN f f' p F M) as (s' & l' & n0 & sky' & g0 & ready0 & Ax0 & S2 & L2 & SL & _).
  rewrite Ax in Ax0. injection Ax0 as <- <-.
  destruct (photo_answers (A := ar_num) NaN f f' p F M) as (s' & l' & n' & sky & g' & ready & Ax' & Ec' & Eg' & Er & H).
  rewrite Ax in Ax'. injection Ax' as <- <-. rewrite Ec in Ec'. injection Ec' as <- <-. rewrite Eg in Eg'. injection Eg' as <-.
  rewrite El in Er. cbn in Er. rewrite Ev in Er. cbn in Er. injection Er as <-.
  specialize (H eq_refl Ei N Nr Nb). intros lat lon d w L. rewrite (H (lat, lon) (Num d) w eq_refl). cbn [g_pix view_geometry fst snd].
  assert (V : latlon2pix v lat lon <> None -> is_visible v lat lon = true).
  { unfold latlon2pix. destruct (is_visible v lat lon); [reflexivity | cbn; intros []; reflexivity]. }
  split.
  - intros (x & z & i & k & G & X0 & Z0 & Xi & Zk & W & Hw & Nw).
    destruct (latlon2pix v lat lon) as [[x' z'] |] eqn:E; [| discriminate]. injection G as -> ->.
    specialize (V ltac:(discriminate)). split; [exact V |].
    split; [destruct w; [discriminate | discriminate] || (intros ->; discriminate) |].
    destruct (RT lat lon L V) as (xr & zr & lon' & E' & P2 & SA). rewrite E in E'. injection E' as -> ->.
    exists xr, zr, i, k, lon'. split; [exact W |]. split; [exact Hw |].
    split; [apply position_size; assumption |]. split; [apply position_size; assumption |]. auto.
  - intros (V' & Nw & x & z & i & k & lon' & W & Hw & Xi & Zk & E & _). rewrite E.
    pose proof W as W'. destruct N as (Hl & Hr & Ht & Hb). unfold is_size, in_window in *.
    assert (SM : size_mod = (2 ^ 64)%Z) by reflexivity.
    destruct (size_position x i ltac:(nia) Xi) as [X0 X1]. destruct (size_position z k ltac:(nia) Zk) as [Z0 Z1].
    exists (Num x), (Num z), i, k. repeat (split; [reflexivity || assumption |]).
    destruct w; [reflexivity | congruence] || (destruct w; [congruence | reflexivity]).
Qed.

Lemma unit_center_1 s l : center_given 1 1 (unit_geom 0 0 1 1 1 1) s l 0 0 3 1 1 1 1 1 0.
Proof. pose proof PI_RGT_0. constructor; auto; try reflexivity; lra. Qed.
Lemma unit_offset_1 : offset 1 1 1 1 1 = 0.
Proof. unfold offset. replace ((1 - 1) ^ 2 + (1 - 1) ^ 2) with 0 by ring. rewrite sqrt_0. ring. Qed.

Lemma unit_photo : exists p f',
  photo_make (A := ar_num) NaN
    (PhotoSource (A := ar_num) (P := (R * R)%type) (a_file [3; 2]%Z) None false false false false (Some (Nibbles 0 0 0 0, false))
       (Some (raw_view other true 1 1 (unit_geom 0 0 1 1 1 1) false)) ex_empty) = Ok (Some p, f') /\
  answer_of (photo_read p (0, 0) (Num 5)) = Ok (Some (Num 22)).
Proof.
  pose proof PI_RGT_0.
  assert (R1 : offset 1 1 1 1 1 <= 3 * cos 0) by (rewrite unit_offset_1, cos_0; lra).
  assert (Fr : 1 * 1 + offset 1 1 1 1 1 * offset 1 1 1 1 1 < 3 * 3) by (rewrite unit_offset_1; lra).
  destruct (center_view true 1 1 _ false 3 2 0 0 3 1 1 1 1 1 0 (unit_center_1 3 2) R1 Fr null_correction)
    as (v & n & X & Z & F & A & Hn & HX & Eb & Ep & Ee & El & Esa & Eso & Er & Em & Ec & Eos & Eol & Et).
  destruct (center_center true 1 1 _ false 3 2 0 0 3 1 1 1 1 1 0 (unit_center_1 3 2) R1 Fr) as (v' & F' & Cc).
  rewrite F in F'. injection F' as <-.
  assert (Vis : is_visible v 0 0 = true).
  { apply unit_visible; auto; [lra|]. rewrite Esa, Eso, Spheroid_Proofs.sub_self, sin_0, cos_0. lra. }
  set (f := PhotoSource _ _ _ _ _ _ _ _ _).
  assert (M : exists p f', photo_make (A := ar_num) NaN f = Ok (Some p, f')).
  { do 2 eexists. unfold photo_make, f. cbn [ps_config ps_geometry ps_file ps_flat_field].
    change (read_image (A := ar_num) NaN (ff_image (a_file [3; 2]%Z))) with
      (Ok ([Num 11; Num 21; NaN; Num 12; Num 22; Num 32], 3%Z, 2%Z)).
    cbn [bind read_flat_field ps_invert_h ps_invert_v].
    change (prepare (A := ar_num) None false false [Num 11; Num 21; NaN; Num 12; Num 22; Num 32] 3 2) with
      (Ok [Num 11; Num 21; NaN; Num 12; Num 22; Num 32]).
    cbn [bind rg_ready raw_view ps_geometric_correction]. rewrite F. cbn [bind]. reflexivity. }
  destruct M as (p & f' & M). exists p, f'. split; [exact M |].
  assert (Fl : flat_source (A := ar_num) f).
  { split; [split; [cbn; lia | intros ? ? [= <- <-]; reflexivity] | discriminate]. }
  assert (Nb : size_nibbles (Nibbles 0 0 0 0)) by (unfold size_nibbles, is_size, size_mod; cbn; lia).
  destruct (photo_sees f f' p 1 1 _ false 3 2 (Nibbles 0 0 0 0) 0 0 3 1 1 1 1 1 0 0 Fl M eq_refl eq_refl eq_refl eq_refl Nb
    ltac:(cbn; lia) ltac:(cbn; lia) eq_refl (unit_center_1 3 2) R1 Fr eq_refl (Rle_refl 0)) as (v' & F' & S).
  rewrite F in F'. injection F' as <-. apply S; [lra |]. split; [exact Vis |]. split; [discriminate |].
  destruct (center_roundtrip true 1 1 _ false 3 2 0 0 3 1 1 1 1 1 0 (unit_center_1 3 2) R1 Fr) as (v' & F' & RT).
  rewrite F in F'. injection F' as <-. destruct (RT 0 eq_refl (Rle_refl 0) 0 0) as (x & z & lon' & L & P & Sa); [lra | exact Vis |].
  pose proof L as L'. rewrite (Cc Vis) in L'. injection L' as <- <-.
  exists 1, 1, 1%Z, 1%Z, lon'. split; [unfold in_window; cbn; lia |]. split; [reflexivity |].
  split; [lra |]. split; [lra |]. auto.
Qed.
End Sees.
